(* RepairDisoProofs.v - lemmas about RepairDiso.v *)
From Verif Require Import Base Constraints Guidelines SpecGuidelines GuidelinesProofs ConstraintsProofs
  PdlTools PdlToolsProofs Divide DivideProofs Moments MomentsProofs Repair10 Repair10Proofs RepairDiso.
Local Open Scope Z_scope.

(* ------------------------------------------------------------------ *)
(** permutations *)
Lemma selects_perm {A} (l : list A) x r : In (x, r) (selects l) -> Permutation (x :: r) l.
Proof.
  revert x r; induction l as [|y l IH]; intros x r; [intros []|]. cbn [selects]. intros [E|H].
  - injection E as <- <-. reflexivity.
  - apply in_map_iff in H. destruct H as [[z u] [E H]]. cbn [fst snd] in E. injection E as <- <-. rewrite perm_swap. constructor. apply IH, H.
Qed.
Lemma perms_perm {A} n : forall (l p : list A), length l = n -> In p (perms n l) -> Permutation p l.
Proof.
  induction n as [|n IH]; intros l p L H; cbn [perms] in H.
  - destruct H as [<-|[]]. destruct l; [constructor|discriminate].
  - apply in_flat_map in H. destruct H as [[x r] [H1 H2]]. cbn [fst snd] in H2. apply in_map_iff in H2. destruct H2 as [t [<- H2]].
    apply selects_perm in H1. rewrite <- H1. constructor. apply IH; [|exact H2].
    apply Permutation_length in H1. cbn [length] in H1. lia.
Qed.
Lemma perms_hd {A} n : forall (l : list A), length l = n -> exists t, perms n l = l :: t.
Proof.
  induction n as [|n IH]; intros l L.
  - destruct l; [|discriminate]. exists []; reflexivity.
  - destruct l as [|x l]; [discriminate|]. cbn [perms selects flat_map fst snd]. destruct (IH l) as [t Ht]; [cbn [length] in L; lia|].
    rewrite Ht. cbn [map app]. eexists; reflexivity.
Qed.
Lemma permutations_perm n p : In p (permutations n) -> Permutation p (seq 0 n).
Proof. apply perms_perm, seq_length. Qed.

Lemma map_nth_seq0 (l : list Z) : map (fun i => nth i l 0) (seq 0 (length l)) = l.
Proof.
  apply (list_ext _ _ 0); [rewrite map_length, seq_length; reflexivity|].
  intros i Hi. rewrite map_length, seq_length in Hi.
  rewrite (nth_indep _ 0 ((fun i => nth i l 0) 0%nat)) by (rewrite map_length, seq_length; lia).
  rewrite (map_nth (fun i => nth i l 0)), seq_nth by lia. reflexivity.
Qed.
Lemma arranged_perm rem p : In p (permutations (length rem)) -> Permutation (arranged rem p) rem.
Proof.
  intros H. apply permutations_perm in H. unfold arranged.
  rewrite (Permutation_map (fun i => nth i rem 0) H), map_nth_seq0. reflexivity.
Qed.
Lemma arranged_id rem : arranged rem (seq 0 (length rem)) = rem.
Proof. apply map_nth_seq0. Qed.

(* ------------------------------------------------------------------ *)
(** smallest_row *)
Lemma keep_smallest_in rows i r : In r (keep_smallest rows i) -> In r rows.
Proof. unfold keep_smallest. rewrite filter_In. tauto. Qed.
Lemma fold_min_le m l x : In x l -> (fold_right Nat.min m l <= x)%nat.
Proof. induction l as [|y l IH]; [intros []|]. cbn [fold_right]. intros [->|H]; [lia|specialize (IH H); lia]. Qed.
Lemma fold_min_in m l : In (fold_right Nat.min m l) (m :: l).
Proof.
  induction l as [|y l IH]; [left; reflexivity|]. cbn [fold_right].
  destruct (Nat.min_dec y (fold_right Nat.min m l)) as [->| ->]; [right; left; reflexivity|]. destruct IH as [<-|H]; [left; reflexivity|right; right; exact H].
Qed.
(** the minimum of a column *)
Lemma keep_smallest_spec rows i r : rows <> [] ->
  (In r (keep_smallest rows i) <-> In r rows /\ forall r', In r' rows -> (nth i r 0 <= nth i r' 0)%nat).
Proof.
  intros Ne. unfold keep_smallest. rewrite filter_In, Nat.eqb_eq.
  set (m := fold_right Nat.min (nth i (hd [] rows) 0%nat) (map (fun r => nth i r 0%nat) rows)).
  assert (Hm : exists r0, In r0 rows /\ nth i r0 0%nat = m).
  { pose proof (fold_min_in (nth i (hd [] rows) 0%nat) (map (fun r => nth i r 0%nat) rows)) as H. fold m in H.
    destruct H as [H|H]; [exists (hd [] rows); destruct rows; [congruence|]; split; [left; reflexivity|exact H]|].
    apply in_map_iff in H. destruct H as [r0 [E H]]. exists r0; auto. }
  assert (Hle : forall r', In r' rows -> (m <= nth i r' 0)%nat).
  { intros r' H. apply fold_min_le. apply in_map_iff. exists r'; auto. }
  split; intros [H1 H2]; split; auto.
  - intros r' H'. rewrite H2. apply Hle, H'.
  - destruct Hm as [r0 [H0 E0]]. specialize (H2 _ H0). specialize (Hle _ H1). lia.
Qed.
Lemma keep_smallest_ne rows i : rows <> [] -> keep_smallest rows i <> [].
Proof.
  intros Ne E. unfold keep_smallest in E.
  set (m := fold_right Nat.min (nth i (hd [] rows) 0%nat) (map (fun r => nth i r 0%nat) rows)) in *.
  pose proof (fold_min_in (nth i (hd [] rows) 0%nat) (map (fun r => nth i r 0%nat) rows)) as H. fold m in H.
  assert (exists r0, In r0 rows /\ nth i r0 0%nat = m) as [r0 [H0 E0]].
  { destruct H as [H|H]; [exists (hd [] rows); destruct rows; [congruence|]; split; [left; reflexivity|exact H]|].
    apply in_map_iff in H. destruct H as [r0 [E0 H]]. exists r0; auto. }
  assert (In r0 (filter (fun r => Nat.eqb (nth i r 0%nat) m) rows)) by (apply filter_In; split; [exact H0|apply Nat.eqb_eq, E0]).
  rewrite E in H1. destruct H1.
Qed.
(** lexicographic order *)
Definition lex_le (a b : list nat) : Prop :=
  a = b \/ exists k, (forall j, (j < k)%nat -> nth j a 0%nat = nth j b 0%nat) /\ (nth k a 0 < nth k b 0)%nat.

Lemma smallest_fold n : forall rows s, rows <> [] ->
  (forall r r', In r rows -> In r' rows -> forall j, (j < s)%nat -> nth j r 0%nat = nth j r' 0%nat) ->
  let out := fold_left keep_smallest (seq s n) rows in
  out <> [] /\ (forall r, In r out -> In r rows) /\
  forall r r', In r out -> In r' rows ->
    (forall j, (j < s + n)%nat -> nth j r 0%nat = nth j r' 0%nat) \/
    exists k, (forall j, (j < k)%nat -> nth j r 0%nat = nth j r' 0%nat) /\ (nth k r 0 < nth k r' 0)%nat.
Proof.
  induction n as [|n IH]; intros rows s Ne Eq; cbn [seq fold_left].
  - split; [exact Ne|]. split; [auto|]. intros r r' H H'. left. rewrite Nat.add_0_r. auto.
  - destruct (IH (keep_smallest rows s) (S s)) as (I1 & I2 & I3).
    + apply keep_smallest_ne, Ne.
    + intros r r' H H' j Hj. apply keep_smallest_spec in H, H'; [|exact Ne|exact Ne]. destruct H as [H K], H' as [H' K'].
      destruct (Nat.eq_dec j s) as [->|N]; [|apply Eq; auto; lia]. specialize (K _ H'). specialize (K' _ H). lia.
    + split; [exact I1|]. split; [intros r H; apply I2, keep_smallest_in in H; exact H|].
      intros r r' H H'. pose proof (I2 _ H) as Hr. apply keep_smallest_spec in Hr; [|exact Ne]. destruct Hr as [Hr K].
      destruct (Nat.eq_dec (nth s r 0%nat) (nth s r' 0%nat)) as [E|N].
      * destruct (I3 r r' H) as [A|A]; [|left; intros j Hj; apply A; lia|right; exact A].
        apply keep_smallest_spec; [exact Ne|]. split; [exact H'|]. intros r2 H2. rewrite <- E. apply K, H2.
      * right. exists s. split; [intros j Hj; apply Eq; auto|]. specialize (K _ H'). lia.
Qed.

Lemma smallest_row_spec rows : (forall r r', In r rows -> In r' rows -> length r = length r') ->
  match smallest_row rows with
  | None => rows = []
  | Some r => In r rows /\ forall r', In r' rows -> lex_le r r'
  end.
Proof.
  intros L. unfold smallest_row. destruct rows as [|r0 rows]; [reflexivity|].
  destruct (smallest_fold (length r0) (r0 :: rows) 0%nat ltac:(discriminate) ltac:(intros; lia)) as (I1 & I2 & I3).
  set (out := fold_left keep_smallest (seq 0 (length r0)) (r0 :: rows)) in *.
  assert (Ho : In (hd [] out) out) by (destruct out; [congruence|left; reflexivity]).
  split; [apply I2, Ho|]. intros r' H'. destruct (I3 _ _ Ho H') as [A|A]; [left|right; exact A].
  assert (L1 : length (hd [] out) = length r0) by (apply L; [apply I2, Ho|left; reflexivity]).
  assert (L2 : length r' = length r0) by (apply L; [exact H'|left; reflexivity]).
  apply (list_ext _ _ 0%nat); [congruence|]. intros i Hi. apply A. lia.
Qed.

Lemma filterR_in {A} (f : A -> result bool) l out x : filterR f l = Ok out -> In x out -> In x l /\ f x = Ok true.
Proof.
  revert out; induction l as [|a l IH]; intros out E H; cbn [filterR] in E; [injection E as <-; destruct H|].
  destruct (f a) as [b|] eqn:Fa; cbn [bind] in E; [|discriminate].
  destruct (filterR f l) as [r|] eqn:Fl; cbn [bind] in E; [|discriminate].
  destruct b; injection E as <-.
  - destruct H as [<-|H]; [split; [left; reflexivity|exact Fa]|]. destruct (IH r eq_refl H); split; [right|]; assumption.
  - destruct (IH r eq_refl H); split; [right|]; assumption.
Qed.
Lemma filterR_total {A} (f : A -> result bool) l : (forall x, In x l -> exists b, f x = Ok b) -> exists out, filterR f l = Ok out.
Proof.
  induction l as [|a l IH]; intros H; cbn [filterR]; [eexists; reflexivity|].
  destruct (H a (or_introl eq_refl)) as [b ->]. cbn [bind]. destruct IH as [out ->]; [intros; apply H; now right|]. eexists; reflexivity.
Qed.

(** the permutation chosen for the last plies: an accepted one, and the lexicographically
    first of the accepted ones *)
Lemma chosen f n good : filterR f (permutations n) = Ok good ->
  match smallest_row good with
  | None => forall p, In p (permutations n) -> f p <> Ok true
  | Some p => In p (permutations n) /\ f p = Ok true /\ (forall p', In p' (permutations n) -> f p' = Ok true -> lex_le p p')
  end.
Proof.
  intros E.
  assert (Len : forall r, In r good -> length r = n).
  { intros r H. destruct (filterR_in _ _ _ _ E H) as [H1 _]. apply permutations_perm, Permutation_length in H1. rewrite seq_length in H1. exact H1. }
  pose proof (smallest_row_spec good) as S1. 
  assert (G : forall p, In p (permutations n) -> f p = Ok true -> In p good).
  { revert E. clear. revert good. generalize (permutations n) as l. intros l; induction l as [|a l IH]; intros good E p H F; [destruct H|].
    cbn [filterR] in E. destruct (f a) as [b|] eqn:Fa; cbn [bind] in E; [|discriminate].
    destruct (filterR f l) as [r|] eqn:Fl; cbn [bind] in E; [|discriminate]. injection E as <-.
    destruct H as [<-|H]; [rewrite F in Fa; injection Fa as <-; left; reflexivity|].
    specialize (IH r eq_refl p H F). destruct b; [right|]; exact IH. }
  destruct (smallest_row good) as [p|].
  - destruct S1 as [H1 H2]; [intros; rewrite !Len by assumption; reflexivity|].
    destruct (filterR_in _ _ _ _ E H1) as [H3 H4]. split; [exact H3|]. split; [exact H4|]. intros p' H' F'. apply H2, G; assumption.
  - intros p H F. specialize (G p H F). rewrite S1 in G; [destruct G|]. intros; rewrite !Len by assumption; reflexivity.
Qed.

(* ------------------------------------------------------------------ *)
(** plies of the given places that are known, and the queue *)
Definition known (l : list Z) : list Z := filter (fun x => negb (x =? 666)) l.
Definition supply (ss : list Z) (ind : list nat) (q : list Z) : list Z := known (map (fun i => nth i ss 0) ind) ++ q.
Definition unknowns (ss : list Z) (ind : list nat) : nat := length (filter (fun i => nth i ss 0 =? 666) ind).

Lemma supply_length ss ind q : length q = unknowns ss ind -> length (supply ss ind q) = length ind.
Proof.
  unfold supply, known, unknowns. rewrite app_length. intros ->.
  induction ind as [|i ind IH]; [reflexivity|]. cbn [map filter]. destruct (nth i ss 0 =? 666); cbn [negb length]; lia.
Qed.
Lemma supply_perm ss i1 i2 q : Permutation i1 i2 -> Permutation (supply ss i1 q) (supply ss i2 q).
Proof.
  intros H. unfold supply. apply Permutation_app_tail. apply (Permutation_map (fun i => nth i ss 0)) in H.
  revert H. generalize (map (fun i => nth i ss 0) i1) (map (fun i => nth i ss 0) i2). unfold known.
  intros a b H; induction H as [|x a b H IH|x y a|a b d H1 IH1 H2 IH2]; cbn [filter].
  - constructor.
  - destruct (negb _); [constructor|]; exact IH.
  - destruct (negb (x =? 666)), (negb (y =? 666)); try reflexivity. apply perm_swap.
  - etransitivity; eassumption.
Qed.
Lemma unknowns_perm ss i1 i2 : Permutation i1 i2 -> unknowns ss i1 = unknowns ss i2.
Proof.
  unfold unknowns. intros H; induction H as [|x a b H IH|x y a|a b d H1 IH1 H2 IH2]; cbn [filter]; try congruence.
  - destruct (_ =? _); cbn [length]; lia.
  - destruct (nth x ss 0 =? 666), (nth y ss 0 =? 666); reflexivity.
Qed.
Lemma supply_cons ss i ind q : supply ss (i :: ind) q = if nth i ss 0 =? 666 then supply ss ind q else nth i ss 0 :: supply ss ind q.
Proof. unfold supply, known. cbn [map filter]. destruct (_ =? _); reflexivity. Qed.

Lemma remove1_perm a q : In a q -> Permutation (a :: remove1 a q) q.
Proof.
  induction q as [|b q IH]; [intros []|]. cbn [remove1]. intros H. destruct (Z.eqb_spec b a) as [->|N]; [reflexivity|].
  destruct H as [E|H]; [congruence|]. rewrite perm_swap. constructor. apply IH, H.
Qed.
Lemma drop_perm i ind : NoDup ind -> In i ind -> Permutation (i :: drop i ind) ind.
Proof.
  intros Nd H. induction ind as [|j ind IH]; [destruct H|]. apply NoDup_cons_iff in Nd; destruct Nd as [N1 N2].
  unfold drop in *. cbn [filter]. destruct (Nat.eqb_spec j i) as [->|N]; cbn [negb].
  - constructor. replace (filter (fun j => negb (Nat.eqb j i)) ind) with ind; [reflexivity|].
    clear - N1. induction ind as [|k ind IH]; [reflexivity|]. cbn [filter]. destruct (Nat.eqb_spec k i) as [->|Nk]; [exfalso; apply N1; now left|].
    cbn [negb]. f_equal. apply IH. intros Hx; apply N1; now right.
  - rewrite perm_swap. constructor. apply IH; [exact N2|]. destruct H; [congruence|assumption].
Qed.
Lemma drop_nodup i ind : NoDup ind -> NoDup (drop i ind).
Proof. apply NoDup_filter. Qed.

Lemma findR_spec f l o : findR f l = Ok o -> match o with Some a => In a l /\ f a = Ok true | None => forall a, In a l -> f a = Ok false end.
Proof.
  induction l as [|a l IH]; cbn [findR]; intros E; [injection E as <-; intros a []|].
  destruct (f a) as [b|] eqn:Fa; cbn [bind] in E; [|discriminate]. destruct b.
  - injection E as <-. split; [left; reflexivity|exact Fa].
  - specialize (IH E). destruct o as [x|]; [destruct IH; split; [right|]; assumption|]. intros x [<-|H]; auto.
Qed.
Lemma findR_total f l : (forall a, In a l -> exists b, f a = Ok b) -> exists o, findR f l = Ok o.
Proof.
  induction l as [|a l IH]; intros H; cbn [findR]; [eexists; reflexivity|]. destruct (H a (or_introl eq_refl)) as [b ->]. cbn [bind].
  destruct b; [eexists; reflexivity|]. apply IH. intros; apply H; now right.
Qed.

Lemma pick_total ss acc cands ind q : (forall a, exists b, acc a = Ok b) -> exists o, pick ss acc cands ind q = Ok o.
Proof.
  intros T. induction ind as [|i ind IH]; cbn [pick]; [eexists; reflexivity|].
  destruct (negb (nth i ss 0 =? 666)).
  - destruct (T (nth i ss 0)) as [b ->]. cbn [bind]. destruct b; [eexists; reflexivity|exact IH].
  - destruct (findR_total acc (cands q) (fun a _ => T a)) as [o ->]. cbn [bind]. destruct o; [eexists; reflexivity|exact IH].
Qed.

Lemma pick_spec ss acc cands ind q a i q' : (forall x, In x (cands q) -> In x q) ->
  pick ss acc cands ind q = Ok (Some (a, i, q')) ->
  In i ind /\ acc a = Ok true /\
  ((nth i ss 0 <> 666 /\ a = nth i ss 0 /\ q' = q) \/ (nth i ss 0 = 666 /\ In a q /\ q' = remove1 a q)).
Proof.
  intros C. induction ind as [|j ind IH]; cbn [pick]; intros E; [discriminate|].
  destruct (Z.eqb_spec (nth j ss 0) 666) as [U|U]; cbn [negb] in E.
  - destruct (findR acc (cands q)) as [o|] eqn:F; cbn [bind] in E; [|discriminate]. apply findR_spec in F. destruct o as [x|].
    + injection E as -> -> <-. destruct F as [F1 F2]. split; [left; reflexivity|]. split; [exact F2|]. right. auto.
    + destruct (IH E) as (I1 & I2); split; [right; exact I1|exact I2].
  - destruct (acc (nth j ss 0)) as [b|] eqn:F; cbn [bind] in E; [|discriminate]. destruct b.
    + injection E as <- <- <-. split; [left; reflexivity|]. split; [exact F|]. left; auto.
    + destruct (IH E) as (I1 & I2); split; [right; exact I1|exact I2].
Qed.

(** what one step takes from the supply *)
Lemma pick_supply ss acc cands ind q a i q' : (forall x, In x (cands q) -> In x q) -> NoDup ind ->
  length q = unknowns ss ind -> pick ss acc cands ind q = Ok (Some (a, i, q')) ->
  acc a = Ok true /\ NoDup (drop i ind) /\ length q' = unknowns ss (drop i ind) /\ length ind = S (length (drop i ind)) /\
  Permutation (supply ss ind q) (a :: supply ss (drop i ind) q').
Proof.
  intros C Nd L E. destruct (pick_spec _ _ _ _ _ _ _ _ C E) as (Hi & Ha & H). split; [exact Ha|]. split; [apply drop_nodup, Nd|].
  pose proof (drop_perm i ind Nd Hi) as P.
  assert (Lu : unknowns ss ind = ((if (nth i ss 0 =? 666)%Z then 1 else 0) + unknowns ss (drop i ind))%nat).
  { rewrite <- (unknowns_perm ss _ _ P). unfold unknowns. cbn [filter]. destruct (_ =? _); reflexivity. }
  assert (LL : length ind = S (length (drop i ind))) by (apply Permutation_length in P; cbn [length] in P; lia).
  destruct H as [(N & -> & ->)|(U & Hq & ->)].
  - rewrite (proj2 (Z.eqb_neq _ _) N) in Lu. split; [lia|]. split; [exact LL|].
    rewrite <- (supply_perm ss _ _ q P), supply_cons, (proj2 (Z.eqb_neq _ _) N). reflexivity.
  - rewrite U in Lu. cbn [Z.eqb Pos.eqb] in Lu. split; [pose proof (remove1_length a q Hq); unfold zlen in *; lia|]. split; [exact LL|].
    rewrite <- (supply_perm ss _ _ q P), supply_cons, U. cbn [Z.eqb Pos.eqb]. unfold supply.
    rewrite <- (remove1_perm a q Hq) at 1. rewrite <- Permutation_middle. reflexivity.
Qed.

Lemma rest_spec ss ind : forall q, length q = unknowns ss ind ->
  exists r, rest ss ind q = Ok (r, []) /\ Permutation r (supply ss ind q) /\ length r = length ind.
Proof.
  induction ind as [|i ind IH]; intros q L; cbn [rest].
  - destruct q; [|discriminate]. exists []. split; [reflexivity|]. split; [constructor|reflexivity].
  - unfold unknowns in L. cbn [filter] in L. destruct (Z.eqb_spec (nth i ss 0) 666) as [U|U]; cbn [negb].
    + destruct q as [|x q]; [discriminate|]. cbn [length] in L. destruct (IH q) as [r (E & P & Lr)]; [unfold unknowns; lia|]. rewrite E. cbn [bind fst snd].
      exists (x :: r). split; [reflexivity|]. split; [|cbn [length]; lia]. rewrite supply_cons, U. cbn [Z.eqb Pos.eqb]. unfold supply in *. rewrite <- Permutation_middle. constructor; exact P.
    + destruct (IH q) as [r (E & P & Lr)]; [unfold unknowns; exact L|]. rewrite E. cbn [bind fst snd].
      exists (nth i ss 0 :: r). split; [reflexivity|]. split; [|cbn [length]; lia]. rewrite supply_cons, (proj2 (Z.eqb_neq _ _) U). constructor; exact P.
Qed.

Lemma order_in a q c x : In x (order_plies_to_test a q c) -> In x q.
Proof.
  unfold order_plies_to_test. rewrite filter_In. intros [_ H]. unfold memb in H. apply existsb_exists in H. destruct H as [y [H E]].
  apply Z.eqb_eq in E; subst; exact H.
Qed.

(* ------------------------------------------------------------------ *)
(** the two rules on a stretch of a laminate *)
Definition pairs_ok (delta : Z) (l : list Z) (lo hi : nat) : Prop :=
  forall i, (lo <= i)%nat -> (S i < hi)%nat -> diso_ok delta (nth i l 0) (nth (S i) l 0).
Definition blocks_ok (n : nat) (l : list Z) (lo hi : nat) : Prop :=
  forall i, (lo <= i)%nat -> (i + n < hi)%nat -> ~ (forall k, (k <= n)%nat -> nth (i + k) l 0 = nth i l 0).

Lemma contig_blocks n l : contig_stack n l <-> blocks_ok n l 0 (length l).
Proof.
  unfold contig_stack, blocks_ok. rewrite has_block_nth. split.
  - intros H i _ Hi K. apply H. exists i; auto.
  - intros H [i [Hi K]]. exact (H i ltac:(lia) Hi K).
Qed.
Lemma diso_pairs delta l : diso_stack delta l <-> pairs_ok delta l 0 (length l).
Proof.
  unfold diso_stack, pairs_ok. split.
  - intros H i _ Hi. apply H, adjacent_nth. exists i; auto.
  - intros H a b A. apply adjacent_nth in A. destruct A as [i [Hi [<- <-]]]. apply H; [lia|exact Hi].
Qed.

Lemma nth_mid (pre w post : list Z) i : (length pre <= i < length pre + length w)%nat -> nth i (pre ++ w ++ post) 0 = nth (i - length pre) w 0.
Proof. intros H. rewrite app_nth2 by lia. rewrite app_nth1 by lia. reflexivity. Qed.

Lemma blocks_seg n pre w post lo hi : blocks_ok n w lo hi -> (hi <= length w)%nat -> blocks_ok n (pre ++ w ++ post) (length pre + lo) (length pre + hi).
Proof.
  intros H Hh i Hl Hi K. apply (H (i - length pre)%nat); [lia|lia|]. intros k Hk. specialize (K k Hk).
  rewrite !nth_mid in K by lia. rewrite <- K. f_equal. lia.
Qed.
Lemma blocks_seg_inv n pre w post lo hi : blocks_ok n (pre ++ w ++ post) (length pre + lo) (length pre + hi) -> (hi <= length w)%nat -> blocks_ok n w lo hi.
Proof.
  intros H Hh i Hl Hi K. apply (H (length pre + i)%nat); [lia|lia|]. intros k Hk. specialize (K k Hk).
  rewrite !nth_mid by lia. replace (length pre + i + k - length pre)%nat with (i + k)%nat by lia. replace (length pre + i - length pre)%nat with i by lia. exact K.
Qed.
Lemma pairs_seg delta pre w post lo hi : pairs_ok delta w lo hi -> (hi <= length w)%nat -> pairs_ok delta (pre ++ w ++ post) (length pre + lo) (length pre + hi).
Proof.
  intros H Hh i Hl Hi. rewrite !nth_mid by lia. replace (S i - length pre)%nat with (S (i - length pre)) by lia. apply H; lia.
Qed.
Lemma pairs_seg_inv delta pre w post lo hi : pairs_ok delta (pre ++ w ++ post) (length pre + lo) (length pre + hi) -> (hi <= length w)%nat -> pairs_ok delta w lo hi.
Proof.
  intros H Hh i Hl Hi. specialize (H (length pre + i)%nat ltac:(lia) ltac:(lia)). rewrite !nth_mid in H by lia.
  replace (length pre + i - length pre)%nat with i in H by lia. replace (S (length pre + i) - length pre)%nat with (S i) in H by lia. exact H.
Qed.
Lemma pairs_join delta l a b d e : pairs_ok delta l a b -> pairs_ok delta l d e -> (d < b)%nat -> pairs_ok delta l a e.
Proof. intros H1 H2 Hd i Hl Hi. destruct (lt_dec (S i) b); [apply H1|apply H2]; lia. Qed.
Lemma blocks_join n l a b d e : blocks_ok n l a b -> blocks_ok n l d e -> (d + n <= b)%nat -> blocks_ok n l a e.
Proof. intros H1 H2 Hd i Hl Hi. destruct (lt_dec (i + n) b); [apply H1|apply H2]; lia. Qed.
Lemma pairs_sub delta l a b a' b' : pairs_ok delta l a b -> (a <= a')%nat -> (b' <= b)%nat -> pairs_ok delta l a' b'.
Proof. intros H Ha Hb i Hl Hi. apply H; lia. Qed.
Lemma blocks_sub n l a b a' b' : blocks_ok n l a b -> (a <= a')%nat -> (b' <= b)%nat -> blocks_ok n l a' b'.
Proof. intros H Ha Hb i Hl Hi. apply H; lia. Qed.

Lemma diso_sym delta a b : diso_ok delta a b -> diso_ok delta b a.
Proof. intros [k H]; exists (- k); lia. Qed.
Lemma pairs_rev delta l lo hi : pairs_ok delta l lo hi -> (hi <= length l)%nat -> pairs_ok delta (rev l) (length l - hi) (length l - lo).
Proof.
  intros H Hh i Hl Hi. rewrite !rev_nth by lia. apply diso_sym.
  replace (length l - S i)%nat with (S (length l - S (S i))) by lia. apply H; lia.
Qed.
Lemma blocks_rev n l lo hi : blocks_ok n l lo hi -> (hi <= length l)%nat -> blocks_ok n (rev l) (length l - hi) (length l - lo).
Proof.
  intros H Hh i Hl Hi K. apply (H (length l - S (i + n))%nat); [lia|lia|]. intros k Hk.
  pose proof (K (n - k)%nat ltac:(lia)) as K1. pose proof (K n ltac:(lia)) as K2.
  rewrite !rev_nth in K1, K2 by lia.
  replace (length l - S (i + n) + k)%nat with (length l - S (i + (n - k)))%nat by lia. congruence.
Qed.
(** on a palindrome it is enough to look at one side *)
Lemma pairs_pal delta l lo mid : l = rev l -> pairs_ok delta l lo mid -> (mid <= length l)%nat -> (length l <= 2 * mid - 1)%nat -> pairs_ok delta l lo (length l - lo).
Proof.
  intros P H Hm H2. pose proof (pairs_rev delta l lo mid H Hm) as R. rewrite <- P in R.
  intros i Hl Hi. destruct (lt_dec (S i) mid); [apply H|apply R]; lia.
Qed.

Definition rules_ready (c : cons) : Prop := contig c = true -> (2 <= n_contig c <= 6)%nat /\ n_contig_c c = Some (n_contig c).

Lemma group_ok_total c st : rules_ready c -> exists b, group_ok c st = Ok b.
Proof.
  intros R. unfold group_ok. assert (exists d, (if diso c then is_diso_ss st (delta_angle c) false None None else Ok true) = Ok d) as [d ->].
  { destruct (diso c); eexists; reflexivity. }
  cbn [bind]. destruct d; cbn [negb]; [|eexists; reflexivity]. destruct (contig c) eqn:E; [|eexists; reflexivity].
  destruct (R E) as [Hn ->]. destruct (is_contig_spec (n_contig c) st Hn) as [b [-> _]]. eexists; reflexivity.
Qed.
Lemma group_ok_spec c st : rules_ready c -> Forall angle_ok st -> (group_ok c st = Ok true <->
  (diso c = true -> pairs_ok (delta_angle c) st 0 (length st)) /\ (contig c = true -> blocks_ok (n_contig c) st 0 (length st))).
Proof.
  intros R Ha. unfold group_ok. rewrite <- diso_pairs. rewrite <- contig_blocks.
  destruct (is_diso_ss_off st (delta_angle c) Ha) as [d [Ed Hd]].
  destruct (diso c) eqn:Di; [rewrite Ed|]; cbn [bind].
  - destruct d; cbn [negb]; [|split; [discriminate|]; intros [H _]; specialize (H eq_refl); apply Hd in H; discriminate].
    assert (diso_stack (delta_angle c) st) by (apply Hd; reflexivity).
    destruct (contig c) eqn:Co; [|split; [split; [auto|discriminate]|auto]].
    destruct (R Co) as [Hn ->]. destruct (is_contig_spec (n_contig c) st Hn) as [b [-> Hb]]. split.
    + intros E. injection E as ->. split; [auto|]. intros _. apply Hb; reflexivity.
    + intros [_ H2]. f_equal. apply Hb, H2; reflexivity.
  - cbn [negb]. destruct (contig c) eqn:Co; [|split; [split; discriminate|auto]].
    destruct (R Co) as [Hn ->]. destruct (is_contig_spec (n_contig c) st Hn) as [b [-> Hb]]. split.
    + intros E. injection E as ->. split; [discriminate|]. intros _. apply Hb; reflexivity.
    + intros [_ H2]. f_equal. apply Hb, H2; reflexivity.
Qed.

(** the tests of the loops *)
Lemma acc_total_gen c (b : bool) w : rules_ready c -> exists r, (if b then Ok false else if contig c then is_contig w (n_contig c) else Ok true) = Ok r.
Proof.
  intros R. destruct b; [eexists; reflexivity|]. destruct (contig c) eqn:E; [|eexists; reflexivity].
  destruct (R E) as [Hn _]. destruct (is_contig_spec (n_contig c) w Hn) as [x [-> _]]. eexists; reflexivity.
Qed.
Lemma acc_spec_gen c x y w : rules_ready c -> angle_ok x -> angle_ok y ->
  (if (diso c && negb (is_diso x y (delta_angle c)))%bool then Ok false else if contig c then is_contig w (n_contig c) else Ok true) = Ok true ->
  (diso c = true -> diso_ok (delta_angle c) x y) /\ (contig c = true -> blocks_ok (n_contig c) w 0 (length w)).
Proof.
  intros R Hx Hy E. destruct (is_diso x y (delta_angle c)) eqn:Di.
  - apply is_diso_spec in Di; [|exact Hx|exact Hy]. split; [auto|]. rewrite andb_false_r in E. destruct (contig c) eqn:Co; [|discriminate].
    intros _. destruct (R Co) as [Hn _]. destruct (is_contig_spec (n_contig c) w Hn) as [b [Eb Hb]]. rewrite Eb in E. injection E as ->.
    apply contig_blocks, Hb; reflexivity.
  - cbn [negb] in E. rewrite andb_true_r in E. destruct (diso c); [discriminate|]. split; [discriminate|]. destruct (contig c) eqn:Co; [|discriminate].
    intros _. destruct (R Co) as [Hn _]. destruct (is_contig_spec (n_contig c) w Hn) as [b [Eb Hb]]. rewrite Eb in E. injection E as ->.
    apply contig_blocks, Hb; reflexivity.
Qed.

Lemma nth_last (l : list Z) : nth (length l - 1) l 0 = last l 0.
Proof.
  induction l as [|x l IH]; [reflexivity|]. destruct l as [|y l]; [reflexivity|].
  change (last (x :: y :: l) 0) with (last (y :: l) 0). rewrite <- IH. cbn [length].
  replace (S (S (length l)) - 1)%nat with (S (S (length l) - 1)) by lia. reflexivity.
Qed.
Lemma hd_nth (l : list Z) : nth 0 l 0 = hd 0 l.
Proof. destruct l; reflexivity. Qed.
Lemma Forall_last (P : Z -> Prop) l : l <> [] -> Forall P l -> P (last l 0).
Proof. intros N H. rewrite <- nth_last. rewrite Forall_forall in H. apply H, nth_In. destruct l; [congruence|cbn [length]; lia]. Qed.
Lemma Forall_hd (P : Z -> Prop) l : l <> [] -> Forall P l -> P (hd 0 l).
Proof. intros N H. destruct l; [congruence|]. inversion H; assumption. Qed.

(** a ply added at the end of a good stretch *)
Definition good_from (c : cons) (d : nat) (l : list Z) : Prop :=
  (diso c = true -> pairs_ok (delta_angle c) l d (length l)) /\ (contig c = true -> blocks_ok (n_contig c) l 0 (length l)).

Lemma extend_end c d l a m : rules_ready c -> l <> [] -> Forall angle_ok (l ++ [a]) -> good_from c d l -> (contig c = true -> n_contig c < m)%nat ->
  (if (diso c && negb (is_diso a (last l 0) (delta_angle c)))%bool then Ok false
   else if contig c then is_contig (skipn (length (l ++ [a]) - m) (l ++ [a])) (n_contig c) else Ok true) = Ok true ->
  good_from c d (l ++ [a]).
Proof.
  intros R Ne Fa [G1 G2] Hm E. apply Forall_app in Fa; destruct Fa as [Fl Fx]. inversion Fx; subst.
  apply acc_spec_gen in E; [|exact R|assumption|apply Forall_last; assumption]. destruct E as [E1 E2].
  split.
  - intros Di i Hl Hi. rewrite app_length in Hi; cbn [length] in Hi.
    destruct (Nat.eq_dec (S i) (length l)) as [E|N].
    + rewrite app_nth1 by lia. rewrite app_nth2 by lia. replace (S i - length l)%nat with 0%nat by lia. cbn [nth].
      apply diso_sym. replace i with (length l - 1)%nat by lia. rewrite nth_last. auto.
    + rewrite !app_nth1 by lia. apply (G1 Di); lia.
  - intros Co. specialize (E2 Co). specialize (G2 Co). specialize (Hm Co).
    set (L := l ++ [a]) in *. assert (LL : length L = S (length l)) by (unfold L; rewrite app_length; cbn [length]; lia).
    pose proof (blocks_seg (n_contig c) (firstn (length L - m) L) (skipn (length L - m) L) [] 0 _ E2 ltac:(lia)) as B.
    rewrite app_nil_r, firstn_skipn in B. rewrite firstn_length, skipn_length in B.
    assert (B0 : blocks_ok (n_contig c) L 0 (length l)).
    { pose proof (blocks_seg (n_contig c) [] l [a] 0 _ G2 ltac:(lia)) as X. cbn [app length] in X. exact X. }
    destruct (le_lt_dec (length L) (n_contig c)) as [Sh|Sh]; [intros i Hl Hi; lia|].
    apply (blocks_join _ _ 0 (length l) (length L - m) (length L)); [exact B0|eapply blocks_sub; [exact B|lia|lia]|lia].
Qed.

Lemma extend_front c l a m : rules_ready c -> l <> [] -> Forall angle_ok (a :: l) -> good_from c 0 l -> (contig c = true -> n_contig c < m)%nat ->
  (if (diso c && negb (is_diso a (hd 0 l) (delta_angle c)))%bool then Ok false
   else if contig c then is_contig (firstn m (a :: l)) (n_contig c) else Ok true) = Ok true ->
  good_from c 0 (a :: l).
Proof.
  intros R Ne Fa [G1 G2] Hm E. inversion Fa as [|x y Fx Fl]; subst.
  apply acc_spec_gen in E; [|exact R|assumption|apply Forall_hd; assumption]. destruct E as [E1 E2].
  split.
  - intros Di i Hl Hi. destruct i as [|i]; cbn [nth].
    + rewrite hd_nth. auto.
    + apply (G1 Di); [lia|]. cbn [length] in Hi; lia.
  - intros Co. specialize (E2 Co). specialize (G2 Co). specialize (Hm Co).
    pose proof (blocks_seg (n_contig c) [a] l [] 0 _ G2 ltac:(lia)) as B. rewrite app_nil_r in B. cbn [app length Nat.add] in B.
    set (L := a :: l) in *. assert (LL : length L = S (length l)) by reflexivity.
    pose proof (blocks_seg (n_contig c) [] (firstn m L) (skipn m L) 0 _ E2 ltac:(lia)) as B2. cbn [app length Nat.add] in B2.
    rewrite firstn_skipn, firstn_length in B2. rewrite LL in *.
    destruct (le_lt_dec (S (length l)) (n_contig c)) as [Sh|Sh]; [intros i Hl Hi; lia|].
    eapply blocks_join; [exact B2|exact B|]. lia.
Qed.

Lemma extend_both c l a : rules_ready c -> l <> [] -> l = rev l -> Forall angle_ok (a :: l) -> good_from c 0 l ->
  acc_in c l a = Ok true -> good_from c 0 (a :: l ++ [a]).
Proof.
  intros R Ne P Fa [G1 G2] E. inversion Fa as [|x y Fx Fl]; subst.
  unfold acc_in in E. assert (nth 1 (a :: l ++ [a]) 0 = hd 0 l) as H1 by (destruct l; [congruence|reflexivity]). rewrite H1 in E.
  apply acc_spec_gen in E; [|exact R|assumption|apply Forall_hd; assumption]. destruct E as [E1 E2].
  set (N := a :: l ++ [a]) in *. assert (LN : length N = S (S (length l))) by (unfold N; cbn [length]; rewrite app_length; cbn [length]; lia).
  assert (Ll : (0 < length l)%nat) by (destruct l; [congruence|cbn [length]; lia]).
  assert (PN : N = rev N) by (unfold N; cbn [rev]; rewrite rev_app_distr; cbn [rev app]; rewrite <- P; reflexivity).
  assert (Sg : N = [a] ++ l ++ [a]) by reflexivity.
  split.
  - intros Di. assert (A : pairs_ok (delta_angle c) N 0 (length N - 1)).
    { intros i Hl Hi. destruct i as [|i]; [unfold N at 1; cbn [nth]; rewrite H1; auto|].
      pose proof (pairs_seg (delta_angle c) [a] l [a] 0 _ (G1 Di) ltac:(lia)) as X. rewrite <- Sg in X. cbn [length Nat.add] in X. apply X; lia. }
    pose proof (pairs_rev _ _ _ _ A ltac:(lia)) as B. rewrite <- PN in B.
    eapply pairs_join; [exact A|eapply pairs_sub; [exact B|apply Nat.le_refl|lia]|lia].
  - intros Co. destruct (R Co) as [Hn _]. specialize (E2 Co). specialize (G2 Co).
    pose proof (blocks_seg (n_contig c) [] (firstn (2 * n_contig c) N) (skipn (2 * n_contig c) N) 0 _ E2 ltac:(lia)) as B2. cbn [app length Nat.add] in B2.
    rewrite firstn_skipn, firstn_length in B2.
    destruct (le_lt_dec (length N) (2 * n_contig c)) as [Sh|Sh]; [eapply blocks_sub; [exact B2|lia|lia]|].
    pose proof (blocks_seg (n_contig c) [a] l [a] 0 _ G2 ltac:(lia)) as X. rewrite <- Sg in X. cbn [length Nat.add] in X.
    assert (A : blocks_ok (n_contig c) N 0 (length N - 1)) by (eapply blocks_join; [exact B2|eapply blocks_sub; [exact X|apply Nat.le_refl|lia]|lia]).
    pose proof (blocks_rev _ _ _ _ A ltac:(lia)) as B. rewrite <- PN in B.
    eapply blocks_join; [exact A|eapply blocks_sub; [exact B|apply Nat.le_refl|lia]|lia].
Qed.

(* ------------------------------------------------------------------ *)
(** the four loops *)
Lemma out_loop_spec c ss d k : rules_ready c -> forall stack ind2 q,
  stack <> [] -> NoDup ind2 -> length q = unknowns ss ind2 -> Forall angle_ok (stack ++ supply ss ind2 q) -> good_from c d stack ->
  exists add ind2' q' done, out_loop c ss k stack ind2 q = Ok (stack ++ add, ind2', q', done) /\
    NoDup ind2' /\ length q' = unknowns ss ind2' /\ Permutation (supply ss ind2 q) (add ++ supply ss ind2' q') /\
    good_from c d (stack ++ add) /\ (done = true -> length add = k).
Proof.
  intros R. induction k as [|k IH]; intros stack ind2 q Ne Nd L Fa G.
  - exists [], ind2, q, true. cbn [out_loop]. rewrite app_nil_r. split; [reflexivity|]. split; [exact Nd|]. split; [exact L|]. split; [reflexivity|]. split; [exact G|reflexivity].
  - cbn [out_loop].
    destruct (pick_total ss (acc_out c stack) (fun q => order_plies_to_test (last stack 0) q c) ind2 q) as [o Eo].
    { intros a. apply acc_total_gen, R. }
    rewrite Eo. cbn [bind]. destruct o as [[[a i] q']|].
    2:{ exists [], ind2, q, false. rewrite app_nil_r. split; [reflexivity|]. split; [exact Nd|]. split; [exact L|]. split; [reflexivity|]. split; [exact G|discriminate]. }
    apply pick_supply in Eo; [|intros x Hx; apply order_in in Hx; exact Hx|exact Nd|exact L]. destruct Eo as (A & Nd' & L' & LL & P).
    assert (Fs : Forall angle_ok (stack ++ [a]) /\ Forall angle_ok (supply ss (drop i ind2) q')).
    { apply Forall_app in Fa; destruct Fa as [F1 F2]. apply (Permutation_Forall P) in F2. inversion F2; subst. split; [apply Forall_app; auto|assumption]. }
    assert (G' : good_from c d (stack ++ [a])).
    { unfold acc_out in A. cbv zeta in A. apply (extend_end c d stack a (n_contig c + 1) R Ne (proj1 Fs) G); [intros; lia|].
      rewrite Nat.sub_add_distr. exact A. }
    destruct (IH (stack ++ [a]) (drop i ind2) q') as (add & ind2' & q2 & done & E1 & E2 & E3 & E4 & E5 & E6); auto.
    { destruct stack; discriminate. }
    { apply Forall_app; split; apply Fs. }
    exists (a :: add), ind2', q2, done. rewrite <- app_assoc in E1, E5. cbn [app] in E1, E5. split; [exact E1|]. split; [exact E2|]. split; [exact E3|].
    split; [rewrite P, E4; reflexivity|]. split; [exact E5|]. intros Hd. cbn [length]. rewrite (E6 Hd). reflexivity.
Qed.

Lemma in_loop_spec c ss k : rules_ready c -> forall stack ind2 q,
  stack <> [] -> stack = rev stack -> NoDup ind2 -> length q = unknowns ss ind2 -> Forall angle_ok (stack ++ supply ss ind2 q) -> good_from c 0 stack ->
  exists add ind2' q' done, in_loop c ss k stack ind2 q = Ok (rev add ++ stack ++ add, ind2', q', done) /\
    NoDup ind2' /\ length q' = unknowns ss ind2' /\ Permutation (supply ss ind2 q) (add ++ supply ss ind2' q') /\
    good_from c 0 (rev add ++ stack ++ add) /\ (done = true -> length add = k).
Proof.
  intros R. induction k as [|k IH]; intros stack ind2 q Ne Pa Nd L Fa G.
  - exists [], ind2, q, true. cbn [in_loop rev app]. rewrite app_nil_r. split; [reflexivity|]. split; [exact Nd|]. split; [exact L|]. split; [reflexivity|]. split; [exact G|reflexivity].
  - cbn [in_loop].
    destruct (pick_total ss (acc_in c stack) (fun q => order_plies_to_test (last stack 0) q c) ind2 q) as [o Eo].
    { intros a. apply acc_total_gen, R. }
    rewrite Eo. cbn [bind]. destruct o as [[[a i] q']|].
    2:{ exists [], ind2, q, false. cbn [rev app]. rewrite app_nil_r. split; [reflexivity|]. split; [exact Nd|]. split; [exact L|]. split; [reflexivity|]. split; [exact G|discriminate]. }
    apply pick_supply in Eo; [|intros x Hx; apply order_in in Hx; exact Hx|exact Nd|exact L]. destruct Eo as (A & Nd' & L' & LL & P).
    assert (Fs : angle_ok a /\ Forall angle_ok stack /\ Forall angle_ok (supply ss (drop i ind2) q')).
    { apply Forall_app in Fa; destruct Fa as [F1 F2]. apply (Permutation_Forall P) in F2. inversion F2; subst. auto. }
    destruct Fs as (Fx & Fst & Fsu).
    pose proof (extend_both c stack a R Ne Pa ltac:(constructor; assumption) G A) as G'.
    destruct (IH (a :: stack ++ [a]) (drop i ind2) q') as (add & ind2' & q2 & done & E1 & E2 & E3 & E4 & E5 & E6); auto.
    { discriminate. }
    { cbn [rev]. rewrite rev_app_distr. cbn [rev app]. rewrite <- Pa. reflexivity. }
    { apply Forall_app; split; [|exact Fsu]. constructor; [exact Fx|]. apply Forall_app; auto. }
    exists (a :: add), ind2', q2, done.
    assert (Eq : rev (a :: add) ++ stack ++ a :: add = rev add ++ (a :: stack ++ [a]) ++ add).
    { cbn [rev]. rewrite <- !app_assoc. cbn [app]. rewrite <- app_assoc. reflexivity. }
    rewrite Eq. split; [exact E1|]. split; [exact E2|]. split; [exact E3|].
    split; [rewrite P, E4; reflexivity|]. split; [exact E5|]. intros Hd. cbn [length]. rewrite (E6 Hd). reflexivity.
Qed.

Lemma good_rev c l : good_from c 0 l -> good_from c 0 (rev l).
Proof.
  intros [G1 G2]. split.
  - intros Di. pose proof (pairs_rev _ _ _ _ (G1 Di) ltac:(lia)) as X. rewrite Nat.sub_diag, Nat.sub_0_r in X. rewrite rev_length. exact X.
  - intros Co. pose proof (blocks_rev _ _ _ _ (G2 Co) ltac:(lia)) as X. rewrite Nat.sub_diag, Nat.sub_0_r in X. rewrite rev_length. exact X.
Qed.

Lemma lastn_skipn (l : list Z) m : lastn m l = skipn (length l - m) l. Proof. reflexivity. Qed.

(** the bottom stack of the inward repair keeps its last [d] pairs unchecked *)
Definition good_upto (c : cons) (d : nat) (l : list Z) : Prop :=
  (diso c = true -> pairs_ok (delta_angle c) l 0 (length l - d)) /\ (contig c = true -> blocks_ok (n_contig c) l 0 (length l)).

Lemma extend_front_upto c d l a m : rules_ready c -> l <> [] -> Forall angle_ok (a :: l) -> good_upto c d l -> (d < length l)%nat -> (contig c = true -> n_contig c < m)%nat ->
  (if (diso c && negb (is_diso a (hd 0 l) (delta_angle c)))%bool then Ok false
   else if contig c then is_contig (firstn m (a :: l)) (n_contig c) else Ok true) = Ok true ->
  good_upto c d (a :: l).
Proof.
  intros R Ne Fa [G1 G2] Hd Hm E. inversion Fa as [|x y Fx Fl]; subst.
  apply acc_spec_gen in E; [|exact R|assumption|apply Forall_hd; assumption]. destruct E as [E1 E2].
  split.
  - intros Di i Hl Hi. destruct i as [|i]; cbn [nth].
    + rewrite hd_nth. auto.
    + apply (G1 Di); [lia|]. cbn [length] in Hi; lia.
  - intros Co. specialize (E2 Co). specialize (G2 Co). specialize (Hm Co).
    pose proof (blocks_seg (n_contig c) [a] l [] 0 _ G2 ltac:(lia)) as B. rewrite app_nil_r in B. cbn [app length Nat.add] in B.
    set (L := a :: l) in *. assert (LL : length L = S (length l)) by reflexivity.
    pose proof (blocks_seg (n_contig c) [] (firstn m L) (skipn m L) 0 _ E2 ltac:(lia)) as B2. cbn [app length Nat.add] in B2.
    rewrite firstn_skipn, firstn_length in B2. rewrite LL in *.
    destruct (le_lt_dec (S (length l)) (n_contig c)) as [Sh|Sh]; [intros i Hl Hi; lia|].
    eapply blocks_join; [exact B2|exact B|]. lia.
Qed.

Lemma out_loop_asym_spec c ss d k : rules_ready c -> forall step top bottom ind2 q,
  top <> [] -> (d < length bottom)%nat -> NoDup ind2 -> length q = unknowns ss ind2 ->
  Forall angle_ok (top ++ bottom ++ supply ss ind2 q) -> good_from c d top -> good_upto c d bottom ->
  exists at_ ab ind2' q' done, out_loop_asym c ss k step top bottom ind2 q = Ok (top ++ at_, ab ++ bottom, ind2', q', done) /\
    NoDup ind2' /\ length q' = unknowns ss ind2' /\ Permutation (supply ss ind2 q) ((at_ ++ ab) ++ supply ss ind2' q') /\
    good_from c d (top ++ at_) /\ good_upto c d (ab ++ bottom) /\
    (done = true -> (length at_ + length ab = k)%nat /\ (length ab + (if Nat.even step then 0 else k mod 2) = length at_ + (if Nat.even step then k mod 2 else 0))%nat).
Proof.
  intros R. induction k as [|k IH]; intros step top bottom ind2 q Ne Hb Nd L Fa Gt Gb.
  - exists [], [], ind2, q, true. cbn [out_loop_asym app]. rewrite app_nil_r. split; [reflexivity|]. split; [exact Nd|]. split; [exact L|]. split; [reflexivity|].
    split; [exact Gt|]. split; [exact Gb|]. intros _. cbn [length]. destruct (Nat.even step); split; reflexivity.
  - cbn [out_loop_asym]. apply Forall_app in Fa; destruct Fa as [Ft Fa]. apply Forall_app in Fa; destruct Fa as [Fb Fs].
    assert (Nb : bottom <> []) by (destruct bottom; [cbn [length] in Hb; lia|discriminate]).
    assert (Mod : (S k mod 2 = 1 - k mod 2)%nat /\ (k mod 2 < 2)%nat).
    { split; [|apply Nat.mod_upper_bound; lia]. rewrite <- !Nat.bit0_mod, !Nat.bit0_odd, Nat.odd_succ, <- Nat.negb_odd. destruct (Nat.odd k); reflexivity. }
    destruct (Nat.even step) eqn:Ev.
    + destruct (pick_total ss (acc_bottom c bottom) (fun q => order_plies_to_test (hd 0 bottom) q c) ind2 q) as [o Eo].
      { intros a. apply acc_total_gen, R. }
      rewrite Eo. cbn [bind]. destruct o as [[[a i] q']|].
      2:{ exists [], [], ind2, q, false. rewrite app_nil_r. cbn [app]. split; [reflexivity|]. split; [exact Nd|]. split; [exact L|]. split; [reflexivity|]. split; [exact Gt|]. split; [exact Gb|discriminate]. }
      apply pick_supply in Eo; [|intros x Hx; apply order_in in Hx; exact Hx|exact Nd|exact L]. destruct Eo as (A & Nd' & L' & LL & P).
      pose proof (Permutation_Forall P Fs) as Fs'. inversion Fs' as [|x y Fx Fsu]; subst.
      assert (G' : good_upto c d (a :: bottom)).
      { apply (extend_front_upto c d bottom a (2 * n_contig c) R Nb); auto. intros Co; destruct (R Co); lia. }
      destruct (IH (S step) top (a :: bottom) (drop i ind2) q') as (at_ & ab & ind2' & q2 & done & E1 & E2 & E3 & E4 & E5 & E6 & E7); auto.
      { cbn [length]; lia. }
      { apply Forall_app; split; [exact Ft|]. apply Forall_app; split; [constructor; assumption|exact Fsu]. }
      exists at_, (ab ++ [a]), ind2', q2, done. rewrite <- app_assoc. cbn [app]. split; [exact E1|]. split; [exact E2|]. split; [exact E3|].
      split; [rewrite P, E4, <- !app_assoc; cbn [app]; rewrite !app_assoc; apply Permutation_middle|]. split; [exact E5|]. split; [exact E6|].
      intros Hd. destruct (E7 Hd) as [X Y]. rewrite Nat.even_succ, <- Nat.negb_even, Ev in Y. cbn [negb] in Y. rewrite app_length. cbn [length]. split; [lia|]. lia.
    + destruct (pick_total ss (acc_top c top) (fun q => order_plies_to_test (last top 0) q c) ind2 q) as [o Eo].
      { intros a. apply acc_total_gen, R. }
      rewrite Eo. cbn [bind]. destruct o as [[[a i] q']|].
      2:{ exists [], [], ind2, q, false. rewrite app_nil_r. cbn [app]. split; [reflexivity|]. split; [exact Nd|]. split; [exact L|]. split; [reflexivity|]. split; [exact Gt|]. split; [exact Gb|discriminate]. }
      apply pick_supply in Eo; [|intros x Hx; apply order_in in Hx; exact Hx|exact Nd|exact L]. destruct Eo as (A & Nd' & L' & LL & P).
      pose proof (Permutation_Forall P Fs) as Fs'. inversion Fs' as [|x y Fx Fsu]; subst.
      assert (Fta : Forall angle_ok (top ++ [a])) by (apply Forall_app; auto).
      assert (G' : good_from c d (top ++ [a])).
      { apply (extend_end c d top a (2 * n_contig c) R Ne Fta Gt); [intros Co; destruct (R Co); lia|exact A]. }
      destruct (IH (S step) (top ++ [a]) bottom (drop i ind2) q') as (at_ & ab & ind2' & q2 & done & E1 & E2 & E3 & E4 & E5 & E6 & E7); auto.
      { destruct top; discriminate. }
      { apply Forall_app; split; [exact Fta|]. apply Forall_app; split; assumption. }
      exists (a :: at_), ab, ind2', q2, done. rewrite <- app_assoc in E1, E5. cbn [app] in E1, E5. split; [exact E1|]. split; [exact E2|]. split; [exact E3|].
      split; [rewrite P, E4; reflexivity|]. split; [exact E5|]. split; [exact E6|].
      intros Hd. destruct (E7 Hd) as [X Y]. rewrite Nat.even_succ, <- Nat.negb_even, Ev in Y. cbn [negb] in Y. cbn [length]. split; [lia|]. lia.
Qed.

Lemma in_loop_asym_spec c ss k : rules_ready c -> forall step stack ind2 q,
  stack <> [] -> NoDup ind2 -> length q = unknowns ss ind2 -> Forall angle_ok (stack ++ supply ss ind2 q) -> good_from c 0 stack ->
  exists a1 a2 ind2' q' done step', in_loop_asym c ss k step stack ind2 q = Ok (a1 ++ stack ++ a2, ind2', q', done, step') /\
    NoDup ind2' /\ length q' = unknowns ss ind2' /\ Permutation (supply ss ind2 q) ((a1 ++ a2) ++ supply ss ind2' q') /\
    good_from c 0 (a1 ++ stack ++ a2) /\ (done = true -> (length a1 + length a2 = k)%nat).
Proof.
  intros R. induction k as [|k IH]; intros step stack ind2 q Ne Nd L Fa G.
  - exists [], [], ind2, q, true, step. cbn [in_loop_asym app]. rewrite app_nil_r. split; [reflexivity|]. split; [exact Nd|]. split; [exact L|]. split; [reflexivity|]. split; [exact G|reflexivity].
  - cbn [in_loop_asym]. apply Forall_app in Fa; destruct Fa as [Fst Fs].
    assert (Fail : exists a1 a2 ind2' q' done step', Ok (stack, ind2, q, false, S step) = Ok (a1 ++ stack ++ a2, ind2', q', done, step') /\
      NoDup ind2' /\ length q' = unknowns ss ind2' /\ Permutation (supply ss ind2 q) ((a1 ++ a2) ++ supply ss ind2' q') /\
      good_from c 0 (a1 ++ stack ++ a2) /\ (done = true -> (length a1 + length a2 = S k)%nat)).
    { exists [], [], ind2, q, false, (S step). rewrite app_nil_r. cbn [app]. split; [reflexivity|]. split; [exact Nd|]. split; [exact L|]. split; [reflexivity|]. split; [exact G|discriminate]. }
    destruct (Nat.even step).
    + destruct (pick_total ss (acc_bottom c stack) (fun q => order_plies_to_test (hd 0 stack) q c) ind2 q) as [o Eo].
      { intros a. apply acc_total_gen, R. }
      rewrite Eo. cbn [bind]. destruct o as [[[a i] q']|]; [|exact Fail].
      apply pick_supply in Eo; [|intros x Hx; apply order_in in Hx; exact Hx|exact Nd|exact L]. destruct Eo as (A & Nd' & L' & LL & P).
      pose proof (Permutation_Forall P Fs) as Fs'. inversion Fs' as [|x y Fx Fsu]; subst.
      assert (G' : good_from c 0 (a :: stack)).
      { apply (extend_front c stack a (2 * n_contig c) R Ne); auto. intros Co; destruct (R Co); lia. }
      destruct (IH (S step) (a :: stack) (drop i ind2) q') as (a1 & a2 & ind2' & q2 & done & step' & E1 & E2 & E3 & E4 & E5 & E6); auto; [discriminate|apply Forall_app; split; [constructor|]; assumption|].
      exists (a1 ++ [a]), a2, ind2', q2, done, step'. rewrite <- app_assoc. cbn [app]. split; [exact E1|]. split; [exact E2|]. split; [exact E3|].
      split; [rewrite P, E4, <- !app_assoc; cbn [app]; apply Permutation_middle|]. split; [exact E5|]. intros Hd. rewrite app_length; cbn [length]. specialize (E6 Hd). lia.
    + destruct (pick_total ss (acc_top c stack) (fun q => order_plies_to_test (last stack 0) q c) ind2 q) as [o Eo].
      { intros a. apply acc_total_gen, R. }
      rewrite Eo. cbn [bind]. destruct o as [[[a i] q']|]; [|exact Fail].
      apply pick_supply in Eo; [|intros x Hx; apply order_in in Hx; exact Hx|exact Nd|exact L]. destruct Eo as (A & Nd' & L' & LL & P).
      pose proof (Permutation_Forall P Fs) as Fs'. inversion Fs' as [|x y Fx Fsu]; subst.
      assert (Fta : Forall angle_ok (stack ++ [a])) by (apply Forall_app; auto).
      assert (G' : good_from c 0 (stack ++ [a])).
      { apply (extend_end c 0 stack a (2 * n_contig c) R Ne Fta G); [intros Co; destruct (R Co); lia|exact A]. }
      destruct (IH (S step) (stack ++ [a]) (drop i ind2) q') as (a1 & a2 & ind2' & q2 & done & step' & E1 & E2 & E3 & E4 & E5 & E6); auto; [destruct stack; discriminate|apply Forall_app; split; assumption|].
      exists a1, (a :: a2), ind2', q2, done, step'. rewrite <- app_assoc in E1, E5. cbn [app] in E1, E5. split; [exact E1|]. split; [exact E2|]. split; [exact E3|].
      split; [rewrite P, E4, <- !app_assoc; cbn [app]; apply Permutation_middle|]. split; [exact E5|]. intros Hd. cbn [length]. specialize (E6 Hd). lia.
Qed.

(* ------------------------------------------------------------------ *)
(** halves *)
Definition half (s : list Z) : list Z := firstn (length s / 2) s.
Definition n_unknown (s : list Z) : nat := length (filter (fun x => x =? 666) s).

Lemma half_split (s : list Z) d k : (d + k <= length s)%nat -> firstn (d + k) s = firstn d s ++ map (fun i => nth i s 0) (seq d k).
Proof.
  revert s; induction d as [|d IH]; intros s H; cbn [Nat.add firstn app].
  - revert s H; induction k as [|k IHk]; intros s H; [reflexivity|]. destruct s as [|x s]; [cbn [length] in H; lia|].
    cbn [firstn seq map nth]. f_equal. cbn [length] in H. rewrite IHk by lia. rewrite <- seq_shift, map_map. reflexivity.
  - destruct s as [|x s]; [cbn [length] in H; lia|]. cbn [length] in H. cbn [firstn app]. f_equal. rewrite IH by lia. f_equal.
    rewrite <- seq_shift, map_map. reflexivity.
Qed.
Lemma known_app a b : known (a ++ b) = known a ++ known b.
Proof. apply filter_app. Qed.
Lemma known_id l : Forall (fun x => x <> 666) l -> known l = l.
Proof. induction 1 as [|x l H F IH]; [reflexivity|]. cbn [known filter]. rewrite (proj2 (Z.eqb_neq _ _) H). cbn [negb]. f_equal. exact IH. Qed.
Lemma n_unknown_app a b : n_unknown (a ++ b) = (n_unknown a + n_unknown b)%nat.
Proof. unfold n_unknown. rewrite filter_app, app_length. reflexivity. Qed.
Lemma n_unknown_0 l : Forall (fun x => x <> 666) l -> n_unknown l = 0%nat.
Proof. unfold n_unknown. induction 1 as [|x l H F IH]; [reflexivity|]. cbn [filter]. rewrite (proj2 (Z.eqb_neq _ _) H). exact IH. Qed.
Lemma n_unknown_map ss ind : n_unknown (map (fun i => nth i ss 0) ind) = unknowns ss ind.
Proof. unfold n_unknown, unknowns. induction ind as [|i ind IH]; [reflexivity|]. cbn [map filter]. destruct (_ =? _); cbn [length]; lia. Qed.
Lemma known_le_perm a b : Permutation a b -> Permutation (known a) (known b).
Proof.
  intros H. unfold known. induction H as [|x a b H IH|x y a|a b d H1 IH1 H2 IH2]; cbn [filter].
  - constructor.
  - destruct (negb _); [constructor|]; exact IH.
  - destruct (negb (x =? 666)), (negb (y =? 666)); try reflexivity. apply perm_swap.
  - etransitivity; eassumption.
Qed.
Lemma Forall_known (P : Z -> Prop) l : Forall P (known l) -> Forall (fun x => x <> 666) l -> Forall P l.
Proof. intros H K. rewrite known_id in H by exact K. exact H. Qed.

Lemma middle_length ss : length (middle ss) = (length ss mod 2)%nat.
Proof. unfold middle. rewrite <- Nat.bit0_mod, Nat.bit0_odd. destruct (Nat.odd (length ss)); reflexivity. Qed.
Lemma middle_rev ss : rev (middle ss) = middle ss.
Proof. unfold middle. destruct (Nat.odd _); reflexivity. Qed.
Lemma whole_pal (h m : list Z) : rev m = m -> h ++ m ++ rev h = rev (h ++ m ++ rev h).
Proof. intros H. rewrite !rev_app_distr, rev_involutive, H, app_assoc. reflexivity. Qed.
Lemma whole_length ss h : length h = (length ss / 2)%nat -> length (h ++ middle ss ++ rev h) = length ss.
Proof. intros H. rewrite !app_length, rev_length, H, middle_length. pose proof (Nat.div_mod (length ss) 2). lia. Qed.

(** the laminate ends up good *)
Definition good_whole (c : cons) (d : nat) (s : list Z) : Prop :=
  diso c = true -> pairs_ok (delta_angle c) s d (length s - d).

Lemma out_window_good c ss stack grp d : rules_ready c ->
  stack <> [] -> (d < length stack)%nat -> (length stack + length grp = length ss / 2)%nat ->
  Forall angle_ok (stack ++ grp ++ middle ss) -> good_from c d stack ->
  group_ok c (out_window ss stack grp) = Ok true ->
  let s := (stack ++ grp) ++ middle ss ++ rev (stack ++ grp) in
  good_whole c d s /\ (contig c = true -> (n_contig c <= length grp + 1)%nat -> contig_stack (n_contig c) s) /\
  (diso c = true -> (length stack <= length grp + 1)%nat -> (2 <= length ss)%nat -> diso_ok (delta_angle c) (nth 0 s 0) (nth 1 s 0)).
Proof.
  intros R Ne Hd L Fa [G1 G2] Ok1 s.
  set (r := length grp) in *. set (a := (length stack - r - 1)%nat). set (m := length (middle ss)).
  set (A := firstn a stack). set (W := out_window ss stack grp) in *.
  assert (LA : length A = a) by (unfold A; rewrite firstn_length; lia).
  assert (LS : length stack <> 0%nat) by (destruct stack; [congruence|discriminate]).
  assert (HW : exists B, s = A ++ W ++ B /\ length W = (length stack - a + r + m + Nat.max r 1)%nat).
  { unfold W, out_window. fold r. cbv zeta. fold a. destruct (Nat.eqb_spec r 0) as [Z0|Z0].
    - assert (grp = []) by (destruct grp; [reflexivity|discriminate]). subst grp. 
      assert (exists x, skipn a stack = [x]) as [x Hx].
      { assert (length (skipn a stack) = 1%nat) by (rewrite skipn_length; unfold a; lia). destruct (skipn a stack) as [|x [|y t]]; try discriminate. eauto. }
      exists (rev A). split.
      + unfold s. rewrite !app_nil_r, Hx. cbn [app rev]. rewrite <- app_assoc.
        replace stack with (A ++ [x]) at 1 2 by (unfold A; rewrite <- Hx; apply firstn_skipn). rewrite rev_app_distr. cbn [rev app]. rewrite <- !app_assoc. cbn [app]. reflexivity.
      + rewrite app_nil_r, Hx. rewrite !app_length. cbn [app rev length]. fold m. unfold a. lia.
    - replace (lastn r (skipn a stack ++ grp)) with grp.
      2:{ rewrite lastn_skipn, skipn_app, skipn_all2; [|rewrite app_length; fold r; lia]. rewrite app_length. fold r.
          replace (_ - length (skipn a stack))%nat with 0%nat by lia. reflexivity. }
      exists (rev stack). split.
      + unfold s. rewrite rev_app_distr. rewrite <- (firstn_skipn a stack) at 1. fold A. rewrite <- !app_assoc. reflexivity.
      + rewrite !app_length, rev_length, skipn_length. fold r m. lia. }
  destruct HW as [B [HW LW]].
  assert (Fs : Forall angle_ok s).
  { unfold s. apply Forall_app in Fa; destruct Fa as [Fa1 Fa]. apply Forall_app in Fa; destruct Fa as [Fa2 Fa3].
    repeat (apply Forall_app; split); auto. apply Forall_rev. apply Forall_app; split; assumption. }
  assert (FW : Forall angle_ok W).
  { rewrite HW in Fs. apply Forall_app in Fs. destruct Fs as [_ Fs]. apply Forall_app in Fs; tauto. }
  apply group_ok_spec in Ok1; [|exact R|exact FW]. destruct Ok1 as [P1 P2].
  assert (Pal : s = rev s) by (apply whole_pal, middle_rev).
  assert (Ls : length s = length ss) by (apply whole_length; rewrite app_length; fold r; lia).
  assert (Lm : (length ss = 2 * (length stack + r) + m)%nat).
  { unfold m. rewrite middle_length. pose proof (Nat.div_mod (length ss) 2). lia. }
  assert (Seg : s = stack ++ (grp ++ middle ss ++ rev (stack ++ grp))) by (unfold s; rewrite <- !app_assoc; reflexivity).
  split; [|split].
  - intros Di. specialize (P1 Di). specialize (G1 Di).
    assert (X : pairs_ok (delta_angle c) s d (length stack)).
    { rewrite Seg. pose proof (pairs_seg (delta_angle c) [] stack (grp ++ middle ss ++ rev (stack ++ grp)) d _ G1 ltac:(lia)) as X. exact X. }
    assert (Y : pairs_ok (delta_angle c) s a (a + length W)).
    { rewrite HW. pose proof (pairs_seg (delta_angle c) A W B 0 _ P1 ltac:(lia)) as Y. rewrite LA, Nat.add_0_r in Y. exact Y. }
    apply (pairs_pal _ _ _ (a + length W)); [exact Pal| |lia|lia].
    eapply pairs_join; [exact X|exact Y|unfold a; lia].
  - intros Co Hn. specialize (P2 Co). specialize (G2 Co). destruct (R Co) as [Hr _]. apply contig_blocks.
    assert (X : blocks_ok (n_contig c) s 0 (length stack)).
    { rewrite Seg. pose proof (blocks_seg (n_contig c) [] stack (grp ++ middle ss ++ rev (stack ++ grp)) 0 _ G2 ltac:(lia)) as X. exact X. }
    assert (Y : blocks_ok (n_contig c) s a (a + length W)).
    { rewrite HW. pose proof (blocks_seg (n_contig c) A W B 0 _ P2 ltac:(lia)) as Y. rewrite LA, Nat.add_0_r in Y. exact Y. }
    assert (E : blocks_ok (n_contig c) s 0 (a + length W)).
    { destruct (Nat.eq_dec a 0) as [Ea|Na]; [rewrite Ea in *; exact Y|]. eapply blocks_join; [exact X|exact Y|unfold a in *; lia]. }
    pose proof (blocks_rev _ _ _ _ E ltac:(lia)) as E2. rewrite <- Pal in E2. rewrite Nat.sub_0_r in E2.
    eapply blocks_join; [exact E|exact E2|]. lia.
  - intros Di Hsm H2. assert (a = 0)%nat as Ea by (unfold a; lia). assert (A = []) as EA by (unfold A; rewrite Ea; reflexivity). rewrite HW, EA. cbn [app].
    rewrite !app_nth1 by lia. apply (P1 Di); lia.
Qed.

Lemma Forall_skipn (P : Z -> Prop) k l : Forall P l -> Forall P (skipn k l).
Proof. intros H. rewrite <- (firstn_skipn k l) in H. apply Forall_app in H. tauto. Qed.
Lemma Forall_firstn (P : Z -> Prop) k l : Forall P l -> Forall P (firstn k l).
Proof. intros H. rewrite <- (firstn_skipn k l) in H. apply Forall_app in H. tauto. Qed.
Lemma n_outer_out_cases c : (n_outer_out c = 1 \/ n_outer_out c = 2)%nat.
Proof. unfold n_outer_out. destruct (two_outer c); auto. Qed.

Lemma outside_sym_spec c n_D1 ss q : rules_ready c -> (diso c = true -> 0 <= delta_angle c) -> (2 * n_outer_out c <= length ss)%nat ->
  Forall (fun x => x <> 666) (firstn (n_outer_out c) ss) -> length q = n_unknown (half ss) ->
  Forall angle_ok (known (half ss) ++ q ++ middle ss) ->
  exists h b, outside_sym c n_D1 ss q = Ok (h ++ middle ss ++ rev h, b, []) /\
    firstn (n_outer_out c) h = firstn (n_outer_out c) ss /\ length h = (length ss / 2)%nat /\ Permutation h (known (half ss) ++ q) /\
    (b = true -> good_whole c (n_outer_out c - 1) (h ++ middle ss ++ rev h) /\
       (contig c = true -> (n_contig c <= Nat.min n_D1 (length ss / 2 - n_outer_out c) + 1)%nat -> contig_stack (n_contig c) (h ++ middle ss ++ rev h)) /\
       (diso c = true -> (length ss / 2 <= 2 * Nat.min n_D1 (length ss / 2 - n_outer_out c) + 1)%nat -> diso_ok (delta_angle c) (nth 0 (h ++ middle ss ++ rev h) 0) (nth 1 (h ++ middle ss ++ rev h) 0))) /\
    (length ss = 2 * n_outer_out c -> b = true)%nat.
Proof.
  intros R Hdel Hn Ko Lq Fa. pose proof (n_outer_out_cases c) as Hd0. unfold outside_sym. set (d := n_outer_out c) in *. set (n := length ss) in *. cbv zeta.
  assert (Hdn : (d <= n / 2)%nat) by (apply Nat.div_le_lower_bound; lia).
  assert (Hh2 : (n / 2 <= n)%nat) by (apply Nat.div_le_upper_bound; lia).
  destruct (Nat.ltb_spec n d) as [H|H]; [lia|]. clear H.
  assert (Hs : half ss = firstn d ss ++ map (fun i => nth i ss 0) (seq d (n / 2 - d))).
  { unfold half. rewrite <- half_split by (fold n; lia). f_equal. fold n; lia. }
  assert (Sup : known (half ss) ++ q = firstn d ss ++ supply ss (seq d (n / 2 - d)) q).
  { rewrite Hs, known_app, (known_id (firstn d ss) Ko), <- app_assoc. reflexivity. }
  assert (Lu : length q = unknowns ss (seq d (n / 2 - d))).
  { rewrite Lq, Hs, n_unknown_app, (n_unknown_0 _ Ko), n_unknown_map. reflexivity. }
  assert (LF : length (firstn d ss) = d) by (rewrite firstn_length; fold n; lia).
  rewrite app_assoc, Sup in Fa. apply Forall_app in Fa. destruct Fa as [Fa Fm].
  destruct (out_loop_spec c ss (d - 1) (n / 2 - n_D1 - d) R (firstn d ss) (seq d (n / 2 - d)) q) as (add & ind2 & q' & done & E1 & E2 & E3 & E4 & E5 & E6).
  { destruct (firstn d ss); [cbn [length] in LF; lia|discriminate]. }
  { apply seq_NoDup. }
  { exact Lu. }
  { exact Fa. }
  { split; [intros _ i Hl Hi; lia|]. intros Co i Hl Hi. destruct (R Co). lia. }
  rewrite E1. cbn [bind]. destruct (rest_spec ss ind2 q' E3) as (rem & Er & Pr & Lr). rewrite Er. cbn [bind].
  set (stack := firstn d ss ++ add) in *.
  assert (Pall : Permutation (stack ++ rem) (known (half ss) ++ q)).
  { rewrite Sup. unfold stack. rewrite <- app_assoc. apply Permutation_app_head. rewrite E4. apply Permutation_app_head. exact Pr. }
  assert (Lall : length (stack ++ rem) = (n / 2)%nat).
  { rewrite (Permutation_length Pall), Sup, app_length, LF, supply_length, seq_length by exact Lu. lia. }
  assert (Fd : forall l, firstn d (stack ++ l) = firstn d ss).
  { intros l. unfold stack. rewrite <- app_assoc, firstn_app, LF, Nat.sub_diag. cbn [firstn]. rewrite app_nil_r. apply firstn_all2; lia. }
  assert (Bad : done = false \/ (forall p, In p (permutations (length ind2)) -> group_ok c (out_window ss stack (arranged rem p)) <> Ok true) -> (n = 2 * d)%nat -> False).
  { intros B Hn2. assert (n / 2 = d)%nat by (rewrite Hn2, (Nat.mul_comm 2), Nat.div_mul; lia).
    destruct B as [->|B].
    - rewrite H, Nat.sub_diag in E1. replace (d - n_D1 - d)%nat with 0%nat in E1 by lia. cbn [out_loop] in E1. discriminate.
    - assert (Lst : length stack = d /\ length rem = 0%nat).
      { rewrite app_length in Lall. unfold stack in *. rewrite app_length in *. lia. }
      destruct Lst as [L1 L2]. assert (rem = []) by (destruct rem; [reflexivity|discriminate]). subst rem. rewrite <- Lr in B. cbn [length] in B.
      apply (B []); [left; reflexivity|]. unfold arranged, out_window. cbn [map length Nat.eqb]. rewrite app_nil_r.
      assert (Mid : middle ss = []).
      { unfold middle. fold n. replace (Nat.odd n) with false; [reflexivity|]. rewrite Hn2, Nat.odd_mul. reflexivity. }
      rewrite Mid. cbn [app]. assert (exists x, skipn (length stack - 0 - 1) stack = [x]) as [x Hx].
      { assert (LL : length (skipn (length stack - 0 - 1) stack) = 1%nat) by (rewrite skipn_length; lia).
        destruct (skipn _ stack) as [|x [|y t]]; try discriminate. eauto. }
      rewrite Hx. cbn [app rev]. apply group_ok_spec; [exact R| |].
      + assert (Fx : Forall angle_ok (skipn (length stack - 0 - 1) stack)).
        { unfold stack. apply Forall_skipn. rewrite E4 in Fa. rewrite app_assoc in Fa. apply Forall_app in Fa. tauto. }
        rewrite Hx in Fx. inversion Fx; subst. auto.
      + split.
        * intros Di i Hl Hi. cbn [length] in Hi. assert (i = 0)%nat by lia. subst i. cbn [nth]. exists 0. specialize (Hdel Di). lia.
        * intros Co i Hl Hi. destruct (R Co). cbn [length] in Hi. lia. }
  assert (Fail : forall b, b = false -> (n = 2 * d -> False)%nat -> exists h b', Ok (stack ++ rem ++ middle ss ++ rev (stack ++ rem), b, @nil Z) = Ok (h ++ middle ss ++ rev h, b', []) /\
    firstn d h = firstn d ss /\ length h = (n / 2)%nat /\ Permutation h (known (half ss) ++ q) /\
    (b' = true -> good_whole c (d - 1) (h ++ middle ss ++ rev h) /\
       (contig c = true -> (n_contig c <= Nat.min n_D1 (n / 2 - d) + 1)%nat -> contig_stack (n_contig c) (h ++ middle ss ++ rev h)) /\
       (diso c = true -> (n / 2 <= 2 * Nat.min n_D1 (n / 2 - d) + 1)%nat -> diso_ok (delta_angle c) (nth 0 (h ++ middle ss ++ rev h) 0) (nth 1 (h ++ middle ss ++ rev h) 0))) /\
    (n = 2 * d -> b' = true)%nat).
  { intros b -> Nn. exists (stack ++ rem), false. split; [rewrite <- app_assoc; reflexivity|]. split; [apply Fd|]. split; [exact Lall|]. split; [exact Pall|]. split; [discriminate|]. intros X; destruct (Nn X). }
  destruct done; cbn [negb]; [|apply Fail; auto].
  specialize (E6 eq_refl). assert (LS : length stack = (d + (n / 2 - n_D1 - d))%nat) by (unfold stack; rewrite app_length; lia).
  destruct (Nat.ltb_spec (length stack) (n / 2 - n_D1)) as [X|X]; [lia|]. clear X.
  destruct (filterR_total (fun p => group_ok c (out_window ss stack (arranged rem p))) (permutations (length ind2))) as [good Eg].
  { intros p _. apply group_ok_total, R. }
  rewrite Eg. cbn [bind]. pose proof (chosen _ _ _ Eg) as Ch. destruct (smallest_row good) as [p|]; [|apply Fail; auto].
  destruct Ch as (C1 & C2 & C3). rewrite <- Lr in C1. pose proof (arranged_perm rem p C1) as Pp. set (grp := arranged rem p) in *.
  assert (Ph : Permutation (stack ++ grp) (known (half ss) ++ q)) by (rewrite Pp; exact Pall).
  assert (Lh : length (stack ++ grp) = (n / 2)%nat) by (rewrite Pp; exact Lall).
  assert (Lg : length grp = Nat.min n_D1 (n / 2 - d)) by (rewrite app_length in Lh; lia).
  rewrite (whole_length ss _ Lh). fold n. rewrite Nat.eqb_refl. cbn [negb].
  exists (stack ++ grp), true. split; [reflexivity|]. split; [apply Fd|]. split; [exact Lh|]. split; [exact Ph|]. split; [|reflexivity].
  intros _. rewrite <- Lg. rewrite app_length in Lh. destruct (out_window_good c ss stack grp (d - 1)) as (W1 & W2 & W3); auto.
  - unfold stack. destruct (firstn d ss); [cbn [length] in LF; lia|discriminate].
  - lia.
  - rewrite app_assoc. apply Forall_app; split; [|exact Fm]. apply (Permutation_Forall (Permutation_sym Ph)). rewrite Sup. exact Fa.
  - split; [exact W1|]. split; [exact W2|]. intros Di Hsm. apply W3; [exact Di|lia|fold n; lia].
Qed.

(** a palindrome whose outer part and inner part are good *)
Lemma pal_window c (st stack : list Z) k : rules_ready c -> stack <> [] -> stack = rev stack ->
  Forall angle_ok (st ++ stack ++ rev st) -> good_from c 0 stack -> (length st + 1 <= k)%nat -> (contig c = true -> length st + n_contig c <= k)%nat ->
  group_ok c (firstn k (st ++ stack ++ rev st)) = Ok true ->
  let w := st ++ stack ++ rev st in
  (diso c = true -> pairs_ok (delta_angle c) w 0 (length w)) /\ (contig c = true -> blocks_ok (n_contig c) w 0 (length w)).
Proof.
  intros R Ne Ps Fa [G1 G2] Hk Hkc Ok1 w.
  apply group_ok_spec in Ok1; [|exact R|apply Forall_firstn; exact Fa]. destruct Ok1 as [P1 P2]. fold w in P1, P2, Fa.
  assert (Pal : w = rev w) by (apply whole_pal; auto).
  assert (Lw : length w = (2 * length st + length stack)%nat) by (unfold w; rewrite !app_length, rev_length; lia).
  assert (Lst : (0 < length stack)%nat) by (destruct stack; [congruence|cbn [length]; lia]).
  assert (Sw : w = [] ++ firstn k w ++ skipn k w) by (symmetry; apply firstn_skipn).
  assert (Lk : length (firstn k w) = Nat.min k (length w)) by apply firstn_length.
  split.
  - intros Di. specialize (P1 Di). specialize (G1 Di).
    pose proof (pairs_seg (delta_angle c) [] (firstn k w) (skipn k w) 0 _ P1 ltac:(lia)) as X. rewrite <- Sw in X. cbn [length Nat.add] in X. rewrite Lk in X.
    pose proof (pairs_seg (delta_angle c) st stack (rev st) 0 _ G1 ltac:(lia)) as Y. fold w in Y. rewrite Nat.add_0_r in Y.
    assert (Z : pairs_ok (delta_angle c) w 0 (length st + length stack)) by (eapply pairs_join; [exact X|exact Y|lia]).
    pose proof (pairs_rev _ _ _ _ Z ltac:(lia)) as Z2. rewrite <- Pal, Nat.sub_0_r in Z2.
    eapply pairs_join; [exact X|exact Z2|lia].
  - intros Co. specialize (P2 Co). specialize (G2 Co). specialize (Hkc Co). destruct (R Co) as [Hn _].
    pose proof (blocks_seg (n_contig c) [] (firstn k w) (skipn k w) 0 _ P2 ltac:(lia)) as X. rewrite <- Sw in X. cbn [length Nat.add] in X. rewrite Lk in X.
    destruct (le_lt_dec (length w) k) as [Sh|Sh]; [rewrite Nat.min_r in X by lia; exact X|]. rewrite Nat.min_l in X by lia.
    pose proof (blocks_seg (n_contig c) st stack (rev st) 0 _ G2 ltac:(lia)) as Y. fold w in Y. rewrite Nat.add_0_r in Y.
    assert (Z : blocks_ok (n_contig c) w 0 (length st + length stack)) by (eapply blocks_join; [exact X|exact Y|lia]).
    assert (Z3 : blocks_ok (n_contig c) w 0 (Nat.max (length st + length stack) k)).
    { destruct (Nat.max_spec (length st + length stack) k) as [[_ ->]|[_ ->]]; assumption. }
    pose proof (blocks_rev _ _ _ _ Z3 ltac:(lia)) as Z2. rewrite <- Pal, Nat.sub_0_r in Z2.
    eapply blocks_join; [exact Z3|exact Z2|]. lia.
Qed.

Lemma n_outer_in_cases c : (dam_tol c = false /\ n_outer_in c = 0 \/ dam_tol c = true /\ (n_outer_in c = 1 \/ n_outer_in c = 2))%nat.
Proof. unfold n_outer_in, two_outer. destruct (dam_tol c); [|left; cbn; auto]. right. split; [reflexivity|]. cbn [andb]. destruct (_ || _)%bool; auto. Qed.
Lemma n_outer_in_out c : (n_outer_in c <= n_outer_out c)%nat.
Proof. unfold n_outer_in, n_outer_out. destruct (two_outer c), (dam_tol c); lia. Qed.

Lemma angle_known l : Forall angle_ok l -> Forall (fun x => x <> 666) l.
Proof. apply Forall_impl. intros x [? ?]; lia. Qed.

Lemma last_firstn_split (outer : list Z) : outer <> [] -> outer = firstn (length outer - 1) outer ++ [last outer 0].
Proof.
  intros Ne. rewrite <- (firstn_skipn (length outer - 1) outer) at 1. f_equal.
  assert (L : length (skipn (length outer - 1) outer) = 1%nat) by (rewrite skipn_length; destruct outer; [congruence|cbn [length]; lia]).
  rewrite <- nth_last. replace (nth (length outer - 1) outer 0) with (nth 0 (skipn (length outer - 1) outer) 0) by (rewrite nth_skipn; f_equal; lia).
  destruct (skipn _ outer) as [|x [|y t]]; try discriminate. reflexivity.
Qed.

Lemma inside_sym_spec c n_D1 s : rules_ready c -> (diso c = true -> 0 <= delta_angle c) -> s = rev s -> Forall angle_ok s ->
  (n_outer_in c <= length s / 2 + length s mod 2 - 1)%nat -> length s <> 0%nat ->
  exists h b, inside_sym c n_D1 s [] = Ok (h ++ middle s ++ rev h, b, []) /\
    firstn (n_outer_in c) h = firstn (n_outer_in c) s /\ length h = (length s / 2)%nat /\ Permutation h (half s) /\
    (b = true -> good_whole c (n_outer_in c - 1) (h ++ middle s ++ rev h) /\
       (contig c = true -> blocks_ok (n_contig c) (h ++ middle s ++ rev h) (n_outer_in c - 1) (length s - (n_outer_in c - 1)))).
Proof.
  intros R Hdel Ps Fa Hd Hn0. unfold inside_sym. set (d := n_outer_in c) in *. set (n := length s) in *. cbv zeta.
  set (hi := (n / 2 + n mod 2 - 1)%nat) in *. pose proof (Nat.div_mod n 2 ltac:(lia)) as Dm. pose proof (Nat.mod_upper_bound n 2 ltac:(lia)) as Mb.
  assert (Hodd : Nat.odd n = Nat.eqb (n mod 2) 1).
  { rewrite <- Nat.bit0_mod, Nat.bit0_odd. destruct (Nat.odd n); reflexivity. }
  destruct (Nat.ltb_spec n d) as [H|H]; [lia|]. clear H. destruct (Nat.eqb_spec n 0) as [H|_]; [congruence|]. cbn [orb].
  set (x := nth (n / 2) s 0). set (centre := if Nat.odd n then [x] else [x; x]). set (outer := firstn d s).
  assert (LO : length outer = d) by (unfold outer; rewrite firstn_length; fold n; lia).
  assert (Fx : angle_ok x) by (rewrite Forall_forall in Fa; apply Fa, nth_In; fold n; lia).
  assert (Lc : length centre = (2 - n mod 2)%nat) by (unfold centre; rewrite Hodd; destruct (Nat.eqb_spec (n mod 2) 1) as [->|N]; [reflexivity|cbn [length]; lia]).
  pose proof (angle_known s Fa) as Ks.
  assert (Hin : forall i, In i (seq d (hi - d)) -> (i < n)%nat) by (intros i Hi; apply in_seq in Hi; lia).
  assert (Ku : forall ind, (forall i, In i ind -> (i < n)%nat) -> unknowns s ind = 0%nat).
  { intros ind Hi. rewrite <- n_unknown_map. apply n_unknown_0. apply Forall_forall. intros y Hy. apply in_map_iff in Hy. destruct Hy as [i [<- Hy]].
    rewrite Forall_forall in Ks. apply Ks, nth_In. apply Hi, Hy. }
  assert (Sup : supply s (rev (seq d (hi - d))) [] = rev (map (fun i => nth i s 0) (seq d (hi - d)))).
  { unfold supply. rewrite app_nil_r, map_rev. apply known_id. apply Forall_rev. apply Forall_forall. intros y Hy. apply in_map_iff in Hy.
    destruct Hy as [i [<- Hy]]. rewrite Forall_forall in Ks. apply Ks, nth_In. apply Hin, Hy. }
  assert (Fm : Forall angle_ok (map (fun i => nth i s 0) (seq d (hi - d)))).
  { apply Forall_forall. intros y Hy. apply in_map_iff in Hy. destruct Hy as [i [<- Hy]]. rewrite Forall_forall in Fa. apply Fa, nth_In, Hin, Hy. }
  assert (Nd0 : NoDup (rev (seq d (hi - d)))) by (eapply Permutation_NoDup; [apply Permutation_rev|apply seq_NoDup]).
  assert (Lu : length (@nil Z) = unknowns s (rev (seq d (hi - d)))) by (rewrite Ku; [reflexivity|]; intros i Hi; apply in_rev in Hi; apply Hin, Hi).
  destruct (in_loop_spec c s (hi - (d + n_D1)) R centre (rev (seq d (hi - d))) []) as (add & ind2 & q' & done & E1 & E2 & E3 & E4 & E5 & E6).
  { unfold centre; destruct (Nat.odd n); discriminate. }
  { unfold centre; destruct (Nat.odd n); reflexivity. }
  { exact Nd0. }
  { exact Lu. }
  { rewrite Sup. apply Forall_app; split; [unfold centre; destruct (Nat.odd n); auto|]. apply Forall_rev, Fm. }
  { split.
    - intros Di i Hl Hi. rewrite Lc in Hi. assert (i = 0 /\ Nat.odd n = false)%nat as [-> Ev].
      { split; [lia|]. rewrite Hodd. apply Nat.eqb_neq. lia. }
      unfold centre. rewrite Ev. cbn [nth]. exists 0. specialize (Hdel Di). lia.
    - intros Co i Hl Hi. destruct (R Co). lia. }
  rewrite E1. cbn [bind]. destruct (rest_spec s ind2 q' E3) as (rem & Er & Pr & Lr). rewrite Er. cbn [bind].
  rewrite Sup in E4.
  assert (P0 : Permutation (rem ++ add) (map (fun i => nth i s 0) (seq d (hi - d)))).
  { rewrite (Permutation_rev (map _ _)), E4. rewrite Pr. apply Permutation_app_comm. }
  assert (L0 : (length rem + length add = hi - d)%nat) by (rewrite <- app_length, (Permutation_length P0), map_length, seq_length; reflexivity).
  set (xs := if Nat.odd n then [] else [x]).
  assert (Hc : centre = xs ++ middle s ++ rev xs).
  { unfold centre, xs, middle. fold n. fold x. destruct (Nat.odd n); reflexivity. }
  assert (Lxs : length xs = (1 - n mod 2)%nat) by (unfold xs; rewrite Hodd; destruct (Nat.eqb_spec (n mod 2) 1) as [->|N]; [reflexivity|cbn [length]; lia]).
  assert (Pre : forall o1 g1 a1 : list Z, (o1 ++ g1 ++ rev a1 ++ xs) ++ middle s ++ rev (o1 ++ g1 ++ rev a1 ++ xs) = o1 ++ g1 ++ (rev a1 ++ centre ++ a1) ++ rev g1 ++ rev o1).
  { intros. rewrite Hc, !rev_app_distr, rev_involutive, <- !app_assoc. reflexivity. }
  assert (Hh : half s = outer ++ map (fun i => nth i s 0) (seq d (hi - d)) ++ xs).
  { unfold half, outer. fold n. rewrite app_assoc, <- half_split by (fold n; lia). unfold xs. rewrite Hodd. destruct (Nat.eqb_spec (n mod 2) 1) as [Eo|No].
    - rewrite app_nil_r. f_equal. lia.
    - replace (n / 2)%nat with (hi + 1)%nat at 1 by lia. rewrite half_split by (fold n; lia). f_equal; [f_equal; lia|]. cbn [seq map]. f_equal.
      unfold x. rewrite Ps at 1. rewrite rev_nth by (fold n; lia). f_equal. fold n; lia. }
  assert (Perm : forall g, Permutation g rem -> Permutation (outer ++ g ++ rev add ++ xs) (half s)).
  { intros g Pg. rewrite Hh. apply Permutation_app_head. rewrite app_assoc. apply Permutation_app_tail. rewrite <- P0, Pg, <- Permutation_rev. reflexivity. }
  assert (Fo : forall t, firstn d (outer ++ t) = firstn d s).
  { intros t. rewrite firstn_app, LO, Nat.sub_diag. cbn [firstn]. rewrite app_nil_r, firstn_all2; [reflexivity|]. rewrite LO. lia. }
  assert (Lh : forall g, length g = length rem -> length (outer ++ g ++ rev add ++ xs) = (n / 2)%nat).
  { intros g Hg. rewrite !app_length, rev_length, LO, Lxs, Hg. lia. }
  set (stack := rev add ++ centre ++ add) in *.
  assert (Fail : exists h b, Ok (outer ++ rev rem ++ stack ++ rem ++ rev outer, false, @nil Z) = Ok (h ++ middle s ++ rev h, b, []) /\
    firstn d h = firstn d s /\ length h = (n / 2)%nat /\ Permutation h (half s) /\
    (b = true -> good_whole c (d - 1) (h ++ middle s ++ rev h) /\
       (contig c = true -> blocks_ok (n_contig c) (h ++ middle s ++ rev h) (d - 1) (n - (d - 1))))).
  { exists (outer ++ rev rem ++ rev add ++ xs), false. split; [rewrite Pre, rev_involutive; reflexivity|]. split; [apply Fo|]. split; [apply Lh, rev_length|].
    split; [apply Perm; symmetry; apply Permutation_rev|discriminate]. }
  destruct done; cbn [negb]; [|exact Fail]. specialize (E6 eq_refl).
  assert (LS : length stack = (2 * length add + length centre)%nat) by (unfold stack; rewrite !app_length, rev_length; lia).
  destruct (Nat.ltb_spec (length stack + 2 * length outer) (n - 2 * n_D1)) as [X|_]; [lia|].
  destruct (filterR_total (fun p => group_ok c (in_window c outer stack (arranged rem p))) (permutations (length ind2))) as [good Eg].
  { intros p _. apply group_ok_total, R. }
  rewrite Eg. cbn [bind]. pose proof (chosen _ _ _ Eg) as Ch. destruct (smallest_row good) as [p|]; [|exact Fail].
  destruct Ch as (C1 & C2 & C3). rewrite <- Lr in C1. pose proof (arranged_perm rem p C1) as Pp. set (grp := arranged rem p) in *.
  pose proof (Permutation_length Pp) as Lg.
  pose proof (Lh grp Lg) as Lhg. cbv zeta. fold grp. pose proof (Pre outer grp add) as Pg0. fold stack in Pg0. rewrite <- Pg0. rewrite (whole_length s _ Lhg). fold n. rewrite Nat.eqb_refl. cbn [negb].
  exists (outer ++ grp ++ rev add ++ xs), true. split; [reflexivity|]. split; [apply Fo|]. split; [exact Lhg|]. split; [apply Perm, Pp|]. intros _.
  rewrite Pg0.
  assert (Pst : stack = rev stack).
  { unfold stack, centre. rewrite !rev_app_distr, rev_involutive, <- app_assoc. destruct (Nat.odd n); reflexivity. }
  assert (Nst : stack <> []) by (intros E; rewrite E in LS; cbn [length] in LS; lia).
  assert (Fall : Forall angle_ok (outer ++ grp ++ stack)).
  { apply Forall_app; split; [apply Forall_firstn, Fa|]. pose proof (Permutation_Forall (Permutation_sym P0) Fm) as F1. apply Forall_app in F1. destruct F1 as [F1 F2].
    apply Forall_app; split; [apply (Permutation_Forall (Permutation_sym Pp)), F1|]. unfold stack. apply Forall_app; split; [apply Forall_rev, F2|].
    apply Forall_app; split; [|exact F2]. unfold centre; destruct (Nat.odd n); auto. }
  unfold in_window in C2. set (st := (if dam_tol c then [last outer 0] else []) ++ grp) in *.
  assert (Lst : (length st <= length grp + 1)%nat) by (unfold st; rewrite app_length; destruct (dam_tol c); cbn [length]; lia).
  assert (Spl : exists A, outer ++ grp = A ++ st /\ length A = (d - 1)%nat).
  { destruct (n_outer_in_cases c) as [[Dt Dn]|[Dt Dn]]; fold d in Dn; unfold st; rewrite Dt.
    - exists []. destruct outer; [split; [reflexivity|cbn; lia]|cbn [length] in LO; lia].
    - assert (outer <> []) as No by (intros E; rewrite E in LO; cbn [length] in LO; lia).
      exists (firstn (length outer - 1) outer). split; [|rewrite firstn_length; lia].
      rewrite app_assoc, <- (last_firstn_split outer No). reflexivity. }
  destruct Spl as (A & Spl & LA).
  assert (Fst : Forall angle_ok (st ++ stack ++ rev st)).
  { rewrite app_assoc, Spl in Fall. apply Forall_app in Fall. destruct Fall as [Fall F3]. apply Forall_app in Fall. destruct Fall as [_ F2].
    apply Forall_app; split; [exact F2|]. apply Forall_app; split; [exact F3|apply Forall_rev, F2]. }
  destruct (pal_window c st stack (2 + 2 * n_contig c + length grp) R Nst Pst Fst E5) as [W1 W2]; [lia|lia|exact C2|].
  set (w := st ++ stack ++ rev st) in *.
  assert (Sw : outer ++ grp ++ stack ++ rev grp ++ rev outer = A ++ w ++ rev A).
  { rewrite app_assoc, Spl. rewrite <- rev_app_distr, Spl, rev_app_distr. unfold w. rewrite <- !app_assoc. reflexivity. }
  assert (Lw : length w = (n - 2 * (d - 1))%nat).
  { assert (LL : length (outer ++ grp ++ stack ++ rev grp ++ rev outer) = n) by (rewrite <- Pg0; apply (whole_length s _ Lhg)).
    rewrite Sw, !app_length, rev_length in LL. clearbody w; lia. }
  rewrite Sw. split.
  - intros Di. pose proof (pairs_seg (delta_angle c) A w (rev A) 0 _ (W1 Di) ltac:(lia)) as Z. rewrite LA in Z.
    rewrite !app_length, rev_length. eapply pairs_sub; [exact Z|lia|lia].
  - intros Co. pose proof (blocks_seg (n_contig c) A w (rev A) 0 _ (W2 Co) ltac:(lia)) as Z. rewrite LA in Z. eapply blocks_sub; [exact Z|lia|lia].
Qed.

(* ------------------------------------------------------------------ *)
(** asymmetric laminates *)
Lemma seq_S_end a k : seq a (S k) = seq a k ++ [(a + k)%nat].
Proof. replace (S k) with (k + 1)%nat by lia. rewrite seq_app. reflexivity. Qed.
Lemma indices_out_spec d n : (1 <= d)%nat -> (2 * d <= n)%nat ->
  Permutation (skipn 2 (indices_out d n)) (seq d (n - 2 * d)) /\ length (indices_out d n) = (2 + (n - 2 * d))%nat.
Proof.
  intros H1 H2. unfold indices_out.
  pose proof (Nat.div_mod n 2 ltac:(lia)) as Dm. pose proof (Nat.mod_upper_bound n 2 ltac:(lia)) as Mb.
  replace (n - n / 2 - (d - 1))%nat with (S (n - n / 2 - d)) by lia. replace (n / 2 - (d - 1))%nat with (S (n / 2 - d)) by lia.
  rewrite seq_S_end, rev_app_distr. cbn [rev app seq interleave skipn]. replace (S (d - 1)) with d by lia.
  assert (Hl : length (rev (seq (n / 2) (n - n / 2 - d))) = length (seq d (n / 2 - d)) \/ length (rev (seq (n / 2) (n - n / 2 - d))) = S (length (seq d (n / 2 - d)))).
  { rewrite rev_length, !seq_length. lia. }
  assert (P : Permutation (interleave (rev (seq (n / 2) (n - n / 2 - d))) (seq d (n / 2 - d))) (seq d (n - 2 * d))).
  { rewrite interleave_perm by exact Hl. rewrite <- Permutation_rev, Permutation_app_comm.
    replace (n - 2 * d)%nat with ((n / 2 - d) + (n - n / 2 - d))%nat by lia. rewrite seq_app. replace (d + (n / 2 - d))%nat with (n / 2)%nat by lia. reflexivity. }
  split; [exact P|]. cbn [length]. rewrite (Permutation_length P), seq_length. reflexivity.
Qed.

Lemma whole_split (s : list Z) d : (2 * d <= length s)%nat -> s = firstn d s ++ map (fun i => nth i s 0) (seq d (length s - 2 * d)) ++ lastn d s.
Proof.
  intros H. rewrite app_assoc, <- half_split by lia. rewrite lastn_skipn. replace (d + (length s - 2 * d))%nat with (length s - d)%nat by lia.
  symmetry; apply firstn_skipn.
Qed.
Lemma map_nth_perm ss i1 i2 : Permutation i1 i2 -> Permutation (map (fun i => nth i ss 0) i1) (map (fun i => nth i ss 0) i2).
Proof. apply Permutation_map. Qed.
Lemma firstn_top (outer t : list Z) : firstn (length outer) (outer ++ t) = outer.
Proof. rewrite firstn_app, Nat.sub_diag. cbn [firstn]. rewrite app_nil_r. apply firstn_all. Qed.
Lemma lastn_bottom (t outer : list Z) : lastn (length outer) (t ++ outer) = outer.
Proof.
  rewrite lastn_skipn, app_length, skipn_app. replace (length t + length outer - length outer)%nat with (length t) by lia.
  rewrite Nat.sub_diag, skipn_all. reflexivity.
Qed.
Lemma lastn_length (l : list Z) d : (d <= length l)%nat -> length (lastn d l) = d.
Proof. intros. rewrite lastn_skipn, skipn_length. lia. Qed.

Lemma out_window_asym_good c top bottom grp d : rules_ready c ->
  (d < length top)%nat -> (d < length bottom)%nat -> (length bottom = length top \/ length bottom = S (length top))%nat ->
  (length bottom = length top \/ 1 <= length grp)%nat ->
  Forall angle_ok (top ++ grp ++ bottom) -> good_from c d top -> good_upto c d bottom ->
  group_ok c (out_window_asym top bottom grp) = Ok true ->
  good_whole c d (top ++ grp ++ bottom) /\ (contig c = true -> (n_contig c <= length grp)%nat -> contig_stack (n_contig c) (top ++ grp ++ bottom)).
Proof.
  intros R Ht Hb Lb Lg Fa [T1 T2] [B1 B2] Ok1. set (s := top ++ grp ++ bottom) in *.
  set (r := length grp) in *. set (a := (length bottom - r - 1)%nat). set (e := Nat.min (length bottom) (r + 1)).
  set (W := out_window_asym top bottom grp) in *.
  assert (HW : s = firstn a top ++ W ++ skipn e bottom).
  { unfold W, out_window_asym. fold r. fold a. fold e. unfold s. rewrite <- (firstn_skipn a top) at 1. rewrite <- (firstn_skipn e bottom) at 1. rewrite <- !app_assoc. reflexivity. }
  assert (Ha : (a <= length top)%nat) by (unfold a; lia).
  assert (LA : length (firstn a top) = a) by (rewrite firstn_length; lia).
  assert (LW : length W = (length top - a + r + e)%nat).
  { unfold W, out_window_asym. fold r. fold a. fold e. rewrite !app_length, skipn_length, firstn_length. fold r. unfold e. lia. }
  assert (FW : Forall angle_ok W) by (rewrite HW in Fa; apply Forall_app in Fa; destruct Fa as [_ Fa]; apply Forall_app in Fa; tauto).
  apply group_ok_spec in Ok1; [|exact R|exact FW]. destruct Ok1 as [P1 P2].
  assert (Ls : length s = (length top + r + length bottom)%nat) by (unfold s; rewrite !app_length; fold r; lia).
  split.
  - intros Di. specialize (P1 Di). specialize (T1 Di). specialize (B1 Di).
    pose proof (pairs_seg (delta_angle c) [] top (grp ++ bottom) d _ T1 ltac:(lia)) as X. cbn [app length Nat.add] in X. fold s in X.
    pose proof (pairs_seg (delta_angle c) (firstn a top) W (skipn e bottom) 0 _ P1 ltac:(lia)) as Y. rewrite <- HW, LA, Nat.add_0_r in Y.
    pose proof (pairs_seg (delta_angle c) (top ++ grp) bottom [] 0 _ B1 ltac:(lia)) as Z. rewrite app_nil_r, <- app_assoc, app_length in Z. fold s r in Z. rewrite Nat.add_0_r in Z.
    assert (X1 : pairs_ok (delta_angle c) s d (a + length W)).
    { destruct (Nat.eq_dec a 0) as [Ea|Na]; [eapply pairs_sub; [exact Y|lia|lia]|]. eapply pairs_join; [exact X|exact Y|unfold a in *; lia]. }
    eapply pairs_sub; [eapply pairs_join; [exact X1|exact Z|unfold e in *; lia]|lia|lia].
  - intros Co Hn. specialize (P2 Co). specialize (T2 Co). specialize (B2 Co). apply contig_blocks.
    pose proof (blocks_seg (n_contig c) [] top (grp ++ bottom) 0 _ T2 ltac:(lia)) as X. cbn [app length Nat.add] in X. fold s in X.
    pose proof (blocks_seg (n_contig c) (firstn a top) W (skipn e bottom) 0 _ P2 ltac:(lia)) as Y. rewrite <- HW, LA, Nat.add_0_r in Y.
    pose proof (blocks_seg (n_contig c) (top ++ grp) bottom [] 0 _ B2 ltac:(lia)) as Z. rewrite app_nil_r, <- app_assoc, app_length in Z. fold s r in Z. rewrite Nat.add_0_r in Z.
    assert (X1 : blocks_ok (n_contig c) s 0 (a + length W)).
    { destruct (Nat.eq_dec a 0) as [Ea|Na]; [rewrite Ea in *; exact Y|]. eapply blocks_join; [exact X|exact Y|unfold a in *; lia]. }
    rewrite Ls. destruct (le_lt_dec (length bottom) (r + 1)) as [Sh|Sh].
    + eapply blocks_sub; [exact X1|lia|unfold e in *; lia].
    + eapply blocks_join; [exact X1|exact Z|unfold e in *; lia].
Qed.

Lemma outside_asym_spec c n_D1 ss q : rules_ready c -> (2 * n_outer_out c <= length ss)%nat ->
  Forall (fun x => x <> 666) (firstn (n_outer_out c) ss) -> Forall (fun x => x <> 666) (lastn (n_outer_out c) ss) -> length q = n_unknown ss ->
  Forall angle_ok (known ss ++ q) ->
  exists s b, outside_asym c n_D1 ss q = Ok (s, b, []) /\
    firstn (n_outer_out c) s = firstn (n_outer_out c) ss /\ lastn (n_outer_out c) s = lastn (n_outer_out c) ss /\ length s = length ss /\ Permutation s (known ss ++ q) /\
    (b = true -> (1 <= n_D1 -> good_whole c (n_outer_out c - 1) s)%nat /\
       (contig c = true -> (n_contig c <= Nat.min n_D1 (length ss - 2 * n_outer_out c))%nat -> contig_stack (n_contig c) s)).
Proof.
  intros R Hn Ko Kb Lq Fa. pose proof (n_outer_out_cases c) as Hd0. unfold outside_asym. set (d := n_outer_out c) in *. set (n := length ss) in *. cbv zeta.
  destruct (Nat.ltb_spec n d) as [H|_]; [lia|].
  destruct (indices_out_spec d n ltac:(lia) Hn) as [Pi Li]. rewrite Li.
  assert (Hs : ss = firstn d ss ++ map (fun i => nth i ss 0) (seq d (n - 2 * d)) ++ lastn d ss) by (apply whole_split; exact Hn).
  assert (LF : length (firstn d ss) = d) by (rewrite firstn_length; fold n; lia).
  assert (LB : length (lastn d ss) = d) by (apply lastn_length; fold n; lia).
  assert (Kn : Permutation (known ss ++ q) (firstn d ss ++ lastn d ss ++ supply ss (skipn 2 (indices_out d n)) q)).
  { rewrite (supply_perm ss _ _ q Pi). rewrite Hs at 1. rewrite !known_app, (known_id _ Ko), (known_id _ Kb). unfold supply. rewrite <- !app_assoc. apply Permutation_app_head.
    rewrite !app_assoc. apply Permutation_app_tail. apply Permutation_app_comm. }
  assert (Lu : length q = unknowns ss (skipn 2 (indices_out d n))).
  { rewrite (unknowns_perm ss _ _ Pi), Lq. rewrite Hs at 1. rewrite !n_unknown_app, (n_unknown_0 _ Ko), (n_unknown_0 _ Kb), n_unknown_map. lia. }
  assert (Nd : NoDup (skipn 2 (indices_out d n))) by (eapply Permutation_NoDup; [symmetry; exact Pi|apply seq_NoDup]).
  pose proof (Permutation_Forall Kn Fa) as Fk.
  destruct (out_loop_asym_spec c ss (d - 1) (2 + (n - 2 * d) - n_D1 - 2) R 0 (firstn d ss) (lastn d ss) (skipn 2 (indices_out d n)) q)
    as (at_ & ab & ind2 & q' & done & E1 & E2 & E3 & E4 & E5 & E6 & E7).
  { destruct (firstn d ss); [cbn [length] in LF; lia|discriminate]. }
  { lia. }
  { exact Nd. }
  { exact Lu. }
  { exact Fk. }
  { split; [intros _ i Hl Hi; lia|]. intros Co i Hl Hi. destruct (R Co). lia. }
  { split; [intros _ i Hl Hi; lia|]. intros Co i Hl Hi. destruct (R Co). lia. }
  rewrite E1. cbn [bind]. destruct (rest_spec ss ind2 q' E3) as (rem & Er & Pr & Lr). rewrite Er. cbn [bind].
  set (top := firstn d ss ++ at_) in *. set (bottom := ab ++ lastn d ss) in *.
  assert (Pall : forall g, Permutation g rem -> Permutation (top ++ g ++ bottom) (known ss ++ q)).
  { intros g Pg. rewrite Kn, E4, Pg, Pr. unfold top, bottom. rewrite <- !app_assoc. apply Permutation_app_head.
    rewrite (Permutation_app_comm (lastn d ss)). rewrite <- !app_assoc. apply Permutation_app_head. rewrite !app_assoc. apply Permutation_app_tail. apply Permutation_app_comm. }
  assert (Lks : length (known ss ++ q) = n).
  { rewrite app_length, Lq. unfold known, n_unknown, n. clear. induction ss as [|y l IH]; [reflexivity|]. cbn [filter length]. destruct (y =? 666); cbn [negb length]; lia. }
  assert (Lall : forall g, Permutation g rem -> length (top ++ g ++ bottom) = n) by (intros g Pg; rewrite (Permutation_length (Pall g Pg)); exact Lks).
  assert (Fd : forall l, firstn d (top ++ l) = firstn d ss) by (intros l; unfold top; rewrite <- app_assoc; rewrite <- LF at 1; apply firstn_top).
  assert (Ld : forall l, lastn d (l ++ bottom) = lastn d ss) by (intros l; unfold bottom; rewrite app_assoc; rewrite <- LB at 1; apply lastn_bottom).
  assert (Fail : exists s b, Ok (top ++ rem ++ bottom, false, @nil Z) = Ok (s, b, []) /\
    firstn d s = firstn d ss /\ lastn d s = lastn d ss /\ length s = n /\ Permutation s (known ss ++ q) /\
    (b = true -> (1 <= n_D1 -> good_whole c (d - 1) s)%nat /\
       (contig c = true -> (n_contig c <= Nat.min n_D1 (n - 2 * d))%nat -> contig_stack (n_contig c) s))).
  { exists (top ++ rem ++ bottom), false. split; [reflexivity|]. split; [apply Fd|]. split; [rewrite app_assoc; apply Ld|]. split; [apply Lall; reflexivity|]. split; [apply Pall; reflexivity|discriminate]. }
  destruct done; cbn [negb]; [|exact Fail]. destruct (E7 eq_refl) as [L1 L2]. cbn [Nat.even] in L2.
  assert (LT : length top = (d + length at_)%nat) by (unfold top; rewrite app_length; lia).
  assert (LBo : length bottom = (d + length ab)%nat) by (unfold bottom; rewrite app_length; lia).
  destruct (Nat.ltb_spec (length bottom + length top) (n - n_D1)) as [X|_]; [lia|].
  destruct (filterR_total (fun p => group_ok c (out_window_asym top bottom (arranged rem p))) (permutations (length ind2))) as [good Eg].
  { intros p _. apply group_ok_total, R. }
  rewrite Eg. cbn [bind]. pose proof (chosen _ _ _ Eg) as Ch. destruct (smallest_row good) as [p|]; [|exact Fail].
  destruct Ch as (C1 & C2 & C3). rewrite <- Lr in C1. pose proof (arranged_perm rem p C1) as Pp. set (grp := arranged rem p) in *. cbv zeta. fold grp.
  pose proof (Lall grp Pp) as Lh. rewrite Lh, Nat.eqb_refl. cbn [negb].
  assert (Lg : length grp = Nat.min n_D1 (n - 2 * d)) by (rewrite !app_length in Lh; lia).
  exists (top ++ grp ++ bottom), true. split; [reflexivity|]. split; [apply Fd|]. split; [rewrite app_assoc; apply Ld|]. split; [exact Lh|]. split; [apply Pall, Pp|].
  intros _. pose proof (Nat.mod_upper_bound (2 + (n - 2 * d) - n_D1 - 2) 2 ltac:(lia)) as Mb. rewrite <- Lg.
  assert (Fall : Forall angle_ok (top ++ grp ++ bottom)) by (apply (Permutation_Forall (Permutation_sym (Pall grp Pp))), Fa).
  split.
  - intros H1. apply (out_window_asym_good c top bottom grp (d - 1)); auto; try lia.
  - intros Co Hg. destruct (R Co) as [Hr _]. apply (out_window_asym_good c top bottom grp (d - 1)); auto; try lia.
Qed.

Lemma indices_in_spec d n : (2 * d < n)%nat ->
  exists i t, indices_in d n = i :: t /\ Permutation (i :: t) (seq d (n - 2 * d)).
Proof.
  intros H. unfold indices_in. set (m := (n - 2 * d)%nat). cbv zeta.
  pose proof (Nat.div_mod m 2 ltac:(lia)) as Dm. pose proof (Nat.mod_upper_bound m 2 ltac:(lia)) as Mb.
  assert (Hl : length (seq (d + m / 2) (m - m / 2)) = length (rev (seq d (m / 2))) \/ length (seq (d + m / 2) (m - m / 2)) = S (length (rev (seq d (m / 2))))).
  { rewrite rev_length, !seq_length. lia. }
  assert (P : Permutation (interleave (seq (d + m / 2) (m - m / 2)) (rev (seq d (m / 2)))) (seq d m)).
  { rewrite interleave_perm by exact Hl. rewrite <- Permutation_rev, Permutation_app_comm. rewrite <- seq_app. replace (m / 2 + (m - m / 2))%nat with m by lia. reflexivity. }
  destruct (interleave _ _) as [|i t].
  - apply Permutation_length in P. rewrite seq_length in P. cbn [length] in P. lia.
  - exists i, t. auto.
Qed.
Lemma insert_perm x l : Permutation (insert_nat x l) (x :: l).
Proof. induction l as [|y l IH]; [reflexivity|]. cbn [insert_nat]. destruct (Nat.leb x y); [reflexivity|]. rewrite IH. apply perm_swap. Qed.
Lemma sort_perm l : Permutation (sort_nat l) l.
Proof. induction l as [|x l IH]; [reflexivity|]. unfold sort_nat in *. cbn [fold_right]. rewrite insert_perm, IH. reflexivity. Qed.
Lemma place_alt_perm plies : forall step stack, Permutation (place_alt step plies stack) (stack ++ plies).
Proof.
  induction plies as [|x t IH]; intros step stack; cbn [place_alt]; [rewrite app_nil_r; reflexivity|].
  rewrite IH. destruct (Nat.even step); [cbn [app]; apply Permutation_middle|rewrite <- app_assoc; reflexivity].
Qed.

Lemma in_test_asym_total c top bottom stack grp : rules_ready c -> exists b, in_test_asym c top bottom stack grp = Ok b.
Proof.
  intros R. unfold in_test_asym. set (st := _ ++ _). cbv zeta. destruct (group_ok_total c (firstn (3 + length grp + n_contig c) st) R) as [b ->]. cbn [bind].
  destruct b; cbn [negb]; [|eexists; reflexivity]. destruct (Nat.ltb _ _); [apply group_ok_total, R|eexists; reflexivity].
Qed.

Lemma two_windows c (pre stack post : list Z) r : rules_ready c -> stack <> [] -> Forall angle_ok (pre ++ stack ++ post) -> good_from c 0 stack ->
  (length pre <= r + 1)%nat -> (length post <= r + 1)%nat ->
  let st := pre ++ stack ++ post in
  length st <> (4 + r + n_contig c)%nat ->
  (do b <- group_ok c (firstn (3 + r + n_contig c) st);
   if negb b then Ok false
   else if Nat.ltb (4 + r + n_contig c) (length st) then group_ok c (skipn (length st - 4 - r - n_contig c) st) else Ok true) = Ok true ->
  (diso c = true -> pairs_ok (delta_angle c) st 0 (length st)) /\ (contig c = true -> blocks_ok (n_contig c) st 0 (length st)).
Proof.
  intros R Ne Fa [G1 G2] Lp Lq st Hne E. fold st in Fa.
  set (k1 := (3 + r + n_contig c)%nat) in *.
  destruct (group_ok_total c (firstn k1 st) R) as [b Eb]. rewrite Eb in E. cbn [bind] in E. destruct b; [|discriminate]. cbn [negb] in E.
  apply group_ok_spec in Eb; [|exact R|apply Forall_firstn, Fa]. destruct Eb as [P1 P2].
  assert (Ls : length st = (length pre + length stack + length post)%nat) by (unfold st; rewrite !app_length; lia).
  assert (L0 : (0 < length stack)%nat) by (destruct stack; [congruence|cbn [length]; lia]).
  assert (Lk : length (firstn k1 st) = Nat.min k1 (length st)) by apply firstn_length.
  assert (Sw : st = [] ++ firstn k1 st ++ skipn k1 st) by (symmetry; apply firstn_skipn).
  assert (Seg : st = pre ++ stack ++ post) by reflexivity.
  destruct (le_lt_dec (length st) k1) as [Sh|Sh].
  - rewrite firstn_all2 in P1, P2 by lia. auto.
  - destruct (Nat.ltb_spec (4 + r + n_contig c) (length st)) as [L4|L4]; [|unfold k1 in *; lia].
    apply group_ok_spec in E; [|exact R|apply Forall_skipn, Fa]. destruct E as [Q1 Q2].
    set (b0 := (length st - 4 - r - n_contig c)%nat) in *.
    assert (Sb : st = firstn b0 st ++ skipn b0 st ++ []) by (rewrite app_nil_r; symmetry; apply firstn_skipn).
    assert (Lb : length (firstn b0 st) = b0) by (rewrite firstn_length; unfold b0; lia).
    assert (Lsk : length (skipn b0 st) = (length st - b0)%nat) by apply skipn_length.
    split.
    + intros Di. specialize (P1 Di). specialize (G1 Di). specialize (Q1 Di).
      pose proof (pairs_seg (delta_angle c) [] (firstn k1 st) (skipn k1 st) 0 _ P1 ltac:(lia)) as X. rewrite <- Sw in X. cbn [length Nat.add] in X.
      pose proof (pairs_seg (delta_angle c) pre stack post 0 _ G1 ltac:(lia)) as Y. rewrite <- Seg, Nat.add_0_r in Y.
      pose proof (pairs_seg (delta_angle c) (firstn b0 st) (skipn b0 st) [] 0 _ Q1 ltac:(lia)) as Z. rewrite <- Sb, Lb, Nat.add_0_r, Lsk in Z.
      replace (b0 + (length st - b0))%nat with (length st) in Z by (unfold b0; lia).
      eapply pairs_join; [eapply pairs_join; [exact X|exact Y|unfold k1 in *; lia]|exact Z|unfold b0 in *; lia].
    + intros Co. specialize (P2 Co). specialize (G2 Co). specialize (Q2 Co).
      pose proof (blocks_seg (n_contig c) [] (firstn k1 st) (skipn k1 st) 0 _ P2 ltac:(lia)) as X. rewrite <- Sw in X. cbn [length Nat.add] in X.
      pose proof (blocks_seg (n_contig c) pre stack post 0 _ G2 ltac:(lia)) as Y. rewrite <- Seg, Nat.add_0_r in Y.
      pose proof (blocks_seg (n_contig c) (firstn b0 st) (skipn b0 st) [] 0 _ Q2 ltac:(lia)) as Z. rewrite <- Sb, Lb, Nat.add_0_r, Lsk in Z.
      replace (b0 + (length st - b0))%nat with (length st) in Z by (unfold b0; lia).
      eapply blocks_join; [eapply blocks_join; [exact X|exact Y|unfold k1 in *; lia]|exact Z|unfold b0 in *; lia].
Qed.

Lemma inside_asym_spec c n_D1 s : rules_ready c -> Forall angle_ok s -> (2 * n_outer_in c < length s)%nat ->
  exists s' b, inside_asym c n_D1 s [] = Ok (s', b, []) /\
    firstn (n_outer_in c) s' = firstn (n_outer_in c) s /\ lastn (n_outer_in c) s' = lastn (n_outer_in c) s /\ length s' = length s /\ Permutation s' s /\
    (b = true -> (length s - 2 * (n_outer_in c - 1) <> 4 + Nat.min n_D1 (length s - 2 * n_outer_in c - 1) + n_contig c)%nat ->
       good_whole c (n_outer_in c - 1) s' /\
       (contig c = true -> blocks_ok (n_contig c) s' (n_outer_in c - 1) (length s - (n_outer_in c - 1)))).
Proof.
  intros R Fa Hd. unfold inside_asym. set (d := n_outer_in c) in *. set (n := length s) in *. cbv zeta.
  destruct (indices_in_spec d n Hd) as (i0 & ti & Ei & Pi). rewrite Ei.
  destruct (Nat.ltb_spec n d) as [H|_]; [lia|]. cbn [length Nat.eqb orb hd skipn].
  assert (Hs : s = firstn d s ++ map (fun i => nth i s 0) (seq d (n - 2 * d)) ++ lastn d s) by (apply whole_split; fold n; lia).
  set (outer := firstn d s) in *. set (bot := lastn d s) in *.
  assert (LO : length outer = d) by (unfold outer; rewrite firstn_length; fold n; lia).
  assert (LB : length bot = d) by (apply lastn_length; fold n; lia).
  pose proof (angle_known s Fa) as Ks.
  assert (Hin : forall i, In i (i0 :: ti) -> (i < n)%nat) by (intros i Hi; rewrite Pi in Hi; apply in_seq in Hi; lia).
  assert (Ku : forall ind, (forall i, In i ind -> (i < n)%nat) -> unknowns s ind = 0%nat /\ supply s ind [] = map (fun i => nth i s 0) ind).
  { intros ind Hi. assert (F : Forall (fun x => x <> 666) (map (fun i => nth i s 0) ind)).
    { apply Forall_forall. intros y Hy. apply in_map_iff in Hy. destruct Hy as [i [<- Hy]]. rewrite Forall_forall in Ks. apply Ks, nth_In. apply Hi, Hy. }
    split; [rewrite <- n_unknown_map; apply n_unknown_0, F|]. unfold supply. rewrite app_nil_r. apply known_id, F. }
  destruct (Ku ti) as [Ku1 Ku2]; [intros; apply Hin; now right|].
  assert (Nd : NoDup (i0 :: ti)) by (eapply Permutation_NoDup; [symmetry; exact Pi|apply seq_NoDup]). apply NoDup_cons_iff in Nd. destruct Nd as [_ Nd].
  assert (Fm : Forall angle_ok (map (fun i => nth i s 0) (i0 :: ti))).
  { apply Forall_forall. intros y Hy. apply in_map_iff in Hy. destruct Hy as [i [<- Hy]]. rewrite Forall_forall in Fa. apply Fa, nth_In. apply Hin, Hy. }
  assert (Lti : S (length ti) = (n - 2 * d)%nat) by (apply Permutation_length in Pi; rewrite seq_length in Pi; cbn [length] in Pi; exact Pi).
  destruct (in_loop_asym_spec c s (S (length ti) - n_D1 - 1) R 0 [nth i0 s 0] ti []) as (a1 & a2 & ind2 & q' & done & step & E1 & E2 & E3 & E4 & E5 & E6).
  { discriminate. }
  { exact Nd. }
  { rewrite Ku1; reflexivity. }
  { rewrite Ku2. exact Fm. }
  { split; [intros _ i Hl Hi; cbn [length] in Hi; lia|]. intros Co i Hl Hi. destruct (R Co). cbn [length] in Hi. lia. }
  rewrite E1. cbn [bind]. set (stack := a1 ++ [nth i0 s 0] ++ a2) in *. rewrite Ku2 in E4.
  assert (E3s : length q' = unknowns s (sort_nat ind2)) by (rewrite (unknowns_perm s _ _ (sort_perm ind2)); exact E3).
  destruct (rest_spec s ind2 q' E3) as (rem & Er & Pr & Lr). destruct (rest_spec s (sort_nat ind2) q' E3s) as (rem2 & Er2 & Pr2 & Lr2).
  rewrite Er, Er2. cbn [bind fst snd].
  assert (Pm : Permutation (stack ++ rem) (map (fun i => nth i s 0) (seq d (n - 2 * d)))).
  { rewrite <- (map_nth_perm s _ _ Pi). cbn [map]. rewrite E4, Pr. unfold stack. rewrite <- !app_assoc. symmetry. cbn [app]. apply Permutation_middle. }
  assert (Pr12 : Permutation rem2 rem) by (rewrite Pr2, Pr; apply supply_perm, sort_perm).
  assert (Pall : forall w, Permutation w (stack ++ rem) -> Permutation (outer ++ w ++ bot) s).
  { intros w Pw. rewrite Hs. apply Permutation_app_head, Permutation_app_tail. rewrite Pw. exact Pm. }
  assert (Lall : forall w, Permutation w (stack ++ rem) -> length (outer ++ w ++ bot) = n) by (intros w Pw; rewrite (Permutation_length (Pall w Pw)); reflexivity).
  assert (Fo : forall t, firstn d (outer ++ t) = outer) by (intros t; rewrite <- LO; apply firstn_top).
  assert (Fb : forall t, lastn d (t ++ bot) = bot) by (intros t; rewrite <- LB; apply lastn_bottom).
  assert (Fail : exists s' b, (if negb (Nat.eqb (length (outer ++ place_alt step rem stack ++ bot)) n) then Err (Raised Other) else Ok (outer ++ place_alt step rem stack ++ bot, false, @nil Z)) = Ok (s', b, []) /\
    firstn d s' = outer /\ lastn d s' = bot /\ length s' = n /\ Permutation s' s /\
    (b = true -> (n - 2 * (d - 1) <> 4 + Nat.min n_D1 (n - 2 * d - 1) + n_contig c)%nat ->
       good_whole c (d - 1) s' /\ (contig c = true -> blocks_ok (n_contig c) s' (d - 1) (n - (d - 1))))).
  { pose proof (place_alt_perm rem step stack) as Pp. rewrite (Lall _ Pp), Nat.eqb_refl. cbn [negb].
    exists (outer ++ place_alt step rem stack ++ bot), false. split; [reflexivity|]. split; [apply Fo|]. split; [rewrite app_assoc; apply Fb|]. split; [apply Lall, Pp|]. split; [apply Pall, Pp|discriminate]. }
  destruct done; cbn [negb]; [|exact Fail]. specialize (E6 eq_refl).
  assert (LS : length stack = S (length a1 + length a2)) by (unfold stack; rewrite !app_length; cbn [length]; lia).
  destruct (Nat.ltb_spec (length bot + length outer + length stack) (n - n_D1)) as [X|_]; [lia|].
  destruct (filterR_total (fun p => in_test_asym c outer bot stack (arranged rem2 p)) (permutations (length ind2))) as [good Eg].
  { intros p _. apply in_test_asym_total, R. }
  rewrite Eg. cbn [bind]. pose proof (chosen _ _ _ Eg) as Ch. destruct (smallest_row good) as [p|]; [|exact Fail].
  destruct Ch as (C1 & C2 & C3). assert (Lr3 : length rem2 = length ind2) by (rewrite Lr2; apply Permutation_length, sort_perm).
  rewrite <- Lr3 in C1. pose proof (arranged_perm rem2 p C1) as Pp. set (grp := arranged rem2 p) in *. cbv zeta. fold grp.
  set (g1 := firstn (length grp / 2) grp) in *. set (g2 := skipn (length grp / 2) grp) in *.
  assert (Pg : Permutation (g1 ++ stack ++ g2) (stack ++ rem)).
  { rewrite Permutation_app_comm, <- app_assoc. apply Permutation_app_head. rewrite Permutation_app_comm. unfold g1, g2. rewrite firstn_skipn, Pp. exact Pr12. }
  replace (outer ++ g1 ++ stack ++ g2 ++ bot) with (outer ++ (g1 ++ stack ++ g2) ++ bot) by (rewrite <- !app_assoc; reflexivity).
  rewrite (Lall _ Pg), Nat.eqb_refl. cbn [negb]. exists (outer ++ (g1 ++ stack ++ g2) ++ bot), true. split; [reflexivity|]. split; [apply Fo|].
  split; [rewrite app_assoc; apply Fb|]. split; [apply Lall, Pg|]. split; [apply Pall, Pg|]. intros _ Hne.
  assert (Lgr : length grp = Nat.min n_D1 (n - 2 * d - 1)).
  { pose proof (Permutation_length Pm) as Lm. rewrite app_length, map_length, seq_length in Lm. pose proof (Permutation_length Pp). pose proof (Permutation_length Pr12). lia. }
  pose proof (Nat.div_mod (length grp) 2 ltac:(lia)) as Dm. pose proof (Nat.mod_upper_bound (length grp) 2 ltac:(lia)) as Mb.
  assert (Lg1 : length g1 = (length grp / 2)%nat) by (unfold g1; rewrite firstn_length; lia).
  assert (Lg2 : length g2 = (length grp - length grp / 2)%nat) by (unfold g2; rewrite skipn_length; lia).
  assert (Fall : Forall angle_ok (outer ++ (g1 ++ stack ++ g2) ++ bot)) by (apply (Permutation_Forall (Permutation_sym (Pall _ Pg))), Fa).
  unfold in_test_asym in C2. fold g1 g2 in C2.
  set (pre := (if dam_tol c then [last outer 0] else []) ++ g1). set (post := g2 ++ (if dam_tol c then [hd 0 bot] else [])).
  assert (Spl : exists A B, outer = A ++ (if dam_tol c then [last outer 0] else []) /\ length A = (d - 1)%nat /\ bot = (if dam_tol c then [hd 0 bot] else []) ++ B /\ length B = (d - 1)%nat).
  { destruct (n_outer_in_cases c) as [[Dt Dn]|[Dt Dn]]; fold d in Dn; rewrite Dt.
    - exists [], []. destruct outer; [|cbn [length] in LO; lia]. destruct bot; [|cbn [length] in LB; lia]. rewrite Dn. repeat split.
    - assert (outer <> []) as No by (intros E; rewrite E in LO; cbn [length] in LO; lia).
      exists (firstn (length outer - 1) outer), (tl bot). split; [apply last_firstn_split, No|]. split; [rewrite firstn_length; lia|].
      destruct bot as [|z bt]; [cbn [length] in LB; lia|]. cbn [tl hd app length] in *. split; [reflexivity|lia]. }
  destruct Spl as (A & B & SA & LA & SB & LBB).
  assert (Sw : outer ++ (g1 ++ stack ++ g2) ++ bot = A ++ (pre ++ stack ++ post) ++ B).
  { rewrite SA at 1. rewrite SB at 1. unfold pre, post. rewrite <- !app_assoc. reflexivity. }
  assert (Lw : length (pre ++ stack ++ post) = (n - 2 * (d - 1))%nat).
  { pose proof (Lall _ Pg) as LL. rewrite Sw, app_length, app_length in LL. lia. }
  destruct (two_windows c pre stack post (length grp) R) as [W1 W2].
  { unfold stack. destruct a1; discriminate. }
  { rewrite Sw in Fall. apply Forall_app in Fall. destruct Fall as [_ Fall]. apply Forall_app in Fall. tauto. }
  { exact E5. }
  { unfold pre. rewrite app_length. destruct (dam_tol c); cbn [length]; lia. }
  { unfold post. rewrite app_length. destruct (dam_tol c); cbn [length]; lia. }
  { rewrite Lw, Lgr. exact Hne. }
  { unfold pre, post. cbv zeta in C2. rewrite <- !app_assoc. exact C2. }
  rewrite Sw. split.
  - intros Di. pose proof (pairs_seg (delta_angle c) A (pre ++ stack ++ post) B 0 _ (W1 Di) ltac:(lia)) as Z. rewrite LA, Lw in Z.
    unfold good_whole. rewrite !(app_length A), (app_length (pre ++ stack ++ post)), Lw, LA, LBB. eapply pairs_sub; [exact Z|lia|lia].
  - intros Co. pose proof (blocks_seg (n_contig c) A (pre ++ stack ++ post) B 0 _ (W2 Co) ltac:(lia)) as Z. rewrite LA, Lw in Z. eapply blocks_sub; [exact Z|lia|lia].
Qed.

(* ------------------------------------------------------------------ *)
(** conforming laminates *)
Lemma group_ok_intro c st : rules_ready c -> Forall angle_ok st ->
  (diso c = true -> pairs_ok (delta_angle c) st 0 (length st)) -> (contig c = true -> blocks_ok (n_contig c) st 0 (length st)) -> group_ok c st = Ok true.
Proof. intros R F P B. apply group_ok_spec; auto. Qed.
Lemma acc_intro c x y w : rules_ready c -> angle_ok x -> angle_ok y ->
  (diso c = true -> diso_ok (delta_angle c) x y) -> (contig c = true -> blocks_ok (n_contig c) w 0 (length w)) ->
  (if (diso c && negb (is_diso x y (delta_angle c)))%bool then Ok false else if contig c then is_contig w (n_contig c) else Ok true) = Ok true.
Proof.
  intros R Hx Hy P B. destruct (diso c && negb (is_diso x y (delta_angle c)))%bool eqn:E.
  - apply andb_true_iff in E. destruct E as [Di E]. specialize (P Di). apply is_diso_spec in P; [|exact Hx|exact Hy]. rewrite P in E. discriminate.
  - destruct (contig c) eqn:Co; [|reflexivity]. destruct (R Co) as [Hn _]. destruct (is_contig_spec (n_contig c) w Hn) as [b [-> Hb]]. f_equal. apply Hb, contig_blocks, B; reflexivity.
Qed.
Lemma lex_id p n : Permutation p (seq 0 n) -> lex_le p (seq 0 n) -> p = seq 0 n.
Proof.
  intros P [E|[k [E L]]]; [exact E|]. exfalso.
  assert (Lp : length p = n) by (apply Permutation_length in P; rewrite seq_length in P; exact P).
  assert (Nd : NoDup p) by (eapply Permutation_NoDup; [symmetry; exact P|apply seq_NoDup]).
  destruct (le_lt_dec n k) as [H|H]; [rewrite (nth_overflow (seq 0 n)) in L by (rewrite seq_length; exact H); lia|].
  rewrite seq_nth in L by exact H. cbn in L. set (j := nth k p 0%nat) in *.
  assert (Ej : nth j p 0%nat = j) by (rewrite E by exact L; rewrite seq_nth by lia; reflexivity).
  assert (j = k) by (apply (proj1 (NoDup_nth p 0%nat) Nd); [lia|lia|exact Ej]). lia.
Qed.
Lemma id_permutation n : In (seq 0 n) (permutations n).
Proof. unfold permutations. destruct (perms_hd n (seq 0 n) (seq_length _ _)) as [t ->]. left; reflexivity. Qed.

Lemma nth_In_dflt (l : list Z) i : (i < length l)%nat -> In (nth i l 0) l.
Proof. apply nth_In. Qed.
Lemma firstn_S_nth (l : list Z) j : (j < length l)%nat -> firstn (S j) l = firstn j l ++ [nth j l 0].
Proof.
  revert l; induction j as [|j IH]; intros [|x l] H; cbn [length] in H; try lia; [reflexivity|].
  cbn [firstn nth app]. f_equal. apply IH. lia.
Qed.
Lemma last_firstn (l : list Z) j : (0 < j <= length l)%nat -> last (firstn j l) 0 = nth (j - 1) l 0.
Proof. intros H. rewrite <- nth_last, firstn_length, nth_firstn by lia. f_equal. lia. Qed.

Lemma filter_all_id {A} (f : A -> bool) l : (forall x, In x l -> f x = true) -> filter f l = l.
Proof. induction l as [|x l IH]; intros H; [reflexivity|]. cbn [filter]. rewrite (H x (or_introl eq_refl)). f_equal. apply IH. intros y Hy. apply H. now right. Qed.
Lemma out_loop_id c ss d h : rules_ready c -> Forall angle_ok ss -> (1 <= d)%nat -> (h <= length ss)%nat ->
  (diso c = true -> pairs_ok (delta_angle c) ss (d - 1) h) -> (contig c = true -> blocks_ok (n_contig c) ss 0 h) ->
  forall k j, (d <= j)%nat -> (j + k <= h)%nat ->
  out_loop c ss k (firstn j ss) (seq j (h - j)) [] = Ok (firstn (j + k) ss, seq (j + k) (h - (j + k)), [], true).
Proof.
  intros R Fa Hd Hh P B. induction k as [|k IH]; intros j Hj Hk; cbn [out_loop].
  - rewrite Nat.add_0_r. reflexivity.
  - replace (h - j)%nat with (S (h - S j)) by lia. cbn [seq pick].
    rewrite Forall_forall in Fa. pose proof (Fa (nth j ss 0) ltac:(apply nth_In; lia)) as Aj. destruct (Z.eqb_spec (nth j ss 0) 666) as [X|_]; [destruct Aj; lia|]. cbn [negb].
    assert (A : acc_out c (firstn j ss) (nth j ss 0) = Ok true).
    { unfold acc_out. cbv zeta. rewrite last_firstn by lia. apply acc_intro; [exact R|exact Aj|apply Fa, nth_In; lia| |].
      - intros Di. apply diso_sym. replace (nth j ss 0) with (nth (S (j - 1)) ss 0) by (f_equal; lia). apply (P Di); lia.
      - intros Co. rewrite <- firstn_S_nth by lia. set (u := firstn (S j) ss). set (m := (length u - n_contig c - 1)%nat).
        assert (Lu : length u = S j) by (unfold u; rewrite firstn_length; lia).
        apply (blocks_seg_inv _ (firstn m u) (skipn m u) (skipn (S j) ss)); [|lia]. rewrite app_assoc, firstn_skipn. unfold u. rewrite firstn_skipn. fold u.
        rewrite firstn_length, skipn_length, Lu. eapply blocks_sub; [exact (B Co)|lia|lia]. }
    rewrite A. cbn [bind]. rewrite <- firstn_S_nth by lia.
    replace (drop j (j :: seq (S j) (h - S j))) with (seq (S j) (h - S j)).
    + rewrite IH by lia. replace (S j + k)%nat with (j + S k)%nat by lia. reflexivity.
    + unfold drop. cbn [filter]. rewrite Nat.eqb_refl. cbn [negb]. symmetry. apply filter_all_id. intros x Hx. apply in_seq in Hx.
      apply negb_true_iff, Nat.eqb_neq. lia.
Qed.
Lemma rest_id ss ind : Forall (fun x => x <> 666) (map (fun i => nth i ss 0) ind) -> rest ss ind [] = Ok (map (fun i => nth i ss 0) ind, []).
Proof.
  induction ind as [|i ind IH]; intros H; [reflexivity|]. cbn [map] in H. inversion H as [|x l Hx Hl]; subst. cbn [rest].
  rewrite (proj2 (Z.eqb_neq _ _) Hx). cbn [negb]. rewrite IH by exact Hl. reflexivity.
Qed.

Lemma half_whole (ss : list Z) : ss = rev ss -> ss = half ss ++ middle ss ++ rev (half ss).
Proof.
  intros P. set (n := length ss). assert (Dm : n = (2 * (n / 2) + n mod 2)%nat) by (apply Nat.div_mod; lia). pose proof (Nat.mod_upper_bound n 2 ltac:(lia)) as Mb.
  assert (Lh : length (half ss) = (n / 2)%nat) by (unfold half; rewrite firstn_length; fold n; lia).
  apply (list_ext _ _ 0); [symmetry; apply whole_length; exact Lh|]. intros i Hi. fold n in Hi.
  destruct (lt_dec i (n / 2)) as [H1|H1].
  - rewrite app_nth1 by lia. unfold half. rewrite nth_firstn by (fold n; lia). reflexivity.
  - rewrite app_nth2 by lia. rewrite Lh. pose proof (middle_length ss) as Lm. fold n in Lm. destruct (lt_dec i (n / 2 + n mod 2)) as [H2|H2].
    + rewrite app_nth1 by lia. unfold middle. fold n. destruct (Nat.odd n) eqn:Eo.
      * replace i with (n / 2)%nat by lia. rewrite Nat.sub_diag. reflexivity.
      * assert (n mod 2 = 0)%nat by (rewrite <- Nat.bit0_mod, Nat.bit0_odd, Eo; reflexivity). lia.
    + rewrite app_nth2 by lia. rewrite rev_nth by lia. rewrite Lh, Lm. unfold half. rewrite nth_firstn by (fold n; lia).
      rewrite P at 1. rewrite rev_nth by (fold n; lia). f_equal. fold n. lia.
Qed.

(** the inward repair keeps a conforming symmetric laminate, when it succeeds; it succeeds when its
    window does not contain a pair of outer plies that breaks the disorientation rule *)
Lemma window_edge h md n nD1 k r a m ls i :
  n = (2 * h + md)%nat -> (md < 2)%nat -> k = (h - nD1 - 2)%nat -> r = (h - (2 + k))%nat -> a = (ls - r - 1)%nat -> m = md -> ls = (2 + k)%nat ->
  (4 <= n)%nat -> (S i < a + (ls - a + r + m + Nat.max r 1))%nat -> (n - 1 <= S i)%nat -> (a + (ls - a + r + m + Nat.max r 1) <= n)%nat ->
  (S i = n - 1 /\ a = 0 /\ 2 <= ls + r /\ 2 <= n)%nat.
Proof. intros. subst m. lia. Qed.

Lemma outside_sym_id c n_D1 ss : rules_ready c -> (diso c = true -> 0 <= delta_angle c) -> ss = rev ss -> (2 * n_outer_out c <= length ss)%nat -> Forall angle_ok ss ->
  good_whole c (n_outer_out c - 1) ss -> (contig c = true -> contig_stack (n_contig c) ss) ->
  exists b, outside_sym c n_D1 ss [] = Ok (ss, b, []) /\
   ((diso c = true -> (n_outer_out c = 2%nat -> (length ss / 2 <= 2 * Nat.min n_D1 (length ss / 2 - 2) + 1)%nat -> diso_ok (delta_angle c) (nth 0 ss 0) (nth 1 ss 0))) <-> b = true).
Proof.
  intros R Hdel Pal Hn Fa G C. pose proof (n_outer_out_cases c) as Hd0. unfold outside_sym. set (d := n_outer_out c) in *. set (n := length ss) in *. cbv zeta.
  assert (Dm : n = (2 * (n / 2) + n mod 2)%nat) by (apply Nat.div_mod; lia). pose proof (Nat.mod_upper_bound n 2 ltac:(lia)) as Mb.
  destruct (Nat.ltb_spec n d) as [H|_]; [lia|].
  set (k := (n / 2 - n_D1 - d)%nat).
  assert (GB : contig c = true -> blocks_ok (n_contig c) ss 0 n) by (intros Co; apply contig_blocks, C, Co).
  rewrite (out_loop_id c ss d (n / 2) R Fa) with (j := d); [|lia|fold n; lia| | |lia|unfold k; lia].
  2:{ intros Di. eapply pairs_sub; [exact (G Di)|lia|fold n; lia]. }
  2:{ intros Co. eapply blocks_sub; [exact (GB Co)|lia|lia]. }
  cbn [bind]. set (r := (n / 2 - (d + k))%nat).
  assert (Hr : r = Nat.min n_D1 (n / 2 - d)) by (unfold r, k; lia).
  assert (Known : Forall (fun x => x <> 666) (map (fun i => nth i ss 0) (seq (d + k) r))).
  { apply Forall_forall. intros x Hx. apply in_map_iff in Hx. destruct Hx as [i [<- Hi]]. apply in_seq in Hi. rewrite Forall_forall in Fa.
    destruct (Fa (nth i ss 0)) as [? ?]; [apply nth_In; fold n; lia|]. lia. }
  rewrite rest_id by exact Known. cbn [bind negb].
  set (stack := firstn (d + k) ss). set (rem := map (fun i => nth i ss 0) (seq (d + k) r)).
  assert (Lst : length stack = (d + k)%nat) by (unfold stack; rewrite firstn_length; fold n; lia).
  assert (Lrem : length rem = r) by (unfold rem; rewrite map_length, seq_length; reflexivity).
  assert (Hh : stack ++ rem = half ss) by (unfold stack, rem, half; rewrite <- half_split by (fold n; lia); f_equal; fold n; lia).
  assert (Whole : stack ++ rem ++ middle ss ++ rev (stack ++ rem) = ss) by (rewrite app_assoc, Hh; symmetry; apply half_whole, Pal).
  destruct (Nat.ltb_spec (length stack) (n / 2 - n_D1)) as [X|_]; [unfold k in *; lia|].
  rewrite seq_length.
  destruct (filterR_total (fun p => group_ok c (out_window ss stack (arranged rem p))) (permutations r)) as [good Eg].
  { intros p _. apply group_ok_total, R. }
  rewrite Eg. cbn [bind]. pose proof (chosen _ _ _ Eg) as Ch.
  set (a := (length stack - r - 1)%nat). set (m := length (middle ss)).
  assert (Lm : m = (n mod 2)%nat) by apply middle_length.
  (* the window of an arrangement: a stretch of the laminate built with it *)
  assert (Win : forall g, length g = r -> Forall angle_ok g -> exists B, (stack ++ g) ++ middle ss ++ rev (stack ++ g) = firstn a stack ++ out_window ss stack g ++ B /\
     length (out_window ss stack g) = (length stack - a + r + m + Nat.max r 1)%nat).
  { intros g Lg Fg. unfold out_window. rewrite Lg. cbv zeta. fold a. destruct (Nat.eqb_spec r 0) as [Z0|Z0].
    - assert (g = []) by (destruct g; [reflexivity|cbn [length] in Lg; lia]). subst g.
      assert (exists x, skipn a stack = [x]) as [x Hx].
      { assert (L1 : length (skipn a stack) = 1%nat) by (rewrite skipn_length; unfold a; lia). destruct (skipn a stack) as [|x [|y t]]; try discriminate. eauto. }
      exists (rev (firstn a stack)). split.
      + rewrite !app_nil_r, Hx. cbn [app rev]. rewrite <- app_assoc.
        replace stack with (firstn a stack ++ [x]) at 1 2 by (rewrite <- Hx; apply firstn_skipn). rewrite rev_app_distr. cbn [rev app]. rewrite <- !app_assoc. cbn [app]. reflexivity.
      + rewrite app_nil_r, Hx. rewrite !app_length. cbn [app rev length]. fold m. unfold a. lia.
    - replace (lastn r (skipn a stack ++ g)) with g.
      2:{ rewrite lastn_skipn, skipn_app, skipn_all2; [|rewrite app_length; lia]. rewrite app_length.
          replace (_ - length (skipn a stack))%nat with 0%nat by lia. reflexivity. }
      exists (rev stack). split.
      + rewrite rev_app_distr. rewrite <- (firstn_skipn a stack) at 1. rewrite <- !app_assoc. reflexivity.
      + rewrite !app_length, rev_length, skipn_length. fold m. lia. }
  assert (Frem : Forall angle_ok rem).
  { apply Forall_forall. intros x Hx. apply in_map_iff in Hx. destruct Hx as [i [<- Hi]]. apply in_seq in Hi. rewrite Forall_forall in Fa. apply Fa, nth_In. fold n; lia. }
  assert (Id : (diso c = true -> d = 2%nat -> a = 0%nat -> (2 <= length stack + r)%nat -> diso_ok (delta_angle c) (nth 0 ss 0) (nth 1 ss 0)) -> group_ok c (out_window ss stack rem) = Ok true).
  { intros Hp. destruct (Win rem Lrem Frem) as (B & HW & LW). rewrite <- app_assoc, Whole in HW.
    assert (LA : length (firstn a stack) = a) by (rewrite firstn_length; unfold a; lia).
    apply group_ok_intro; [exact R| | |].
    - rewrite HW in Fa. apply Forall_app in Fa. destruct Fa as [_ Fa']. apply Forall_app in Fa'. tauto.
    - intros Di. apply (pairs_seg_inv _ (firstn a stack) _ B); [|lia]. rewrite <- HW, LA.
      intros i Hl Hi. destruct (le_lt_dec (d - 1) i) as [Hdi|Hdi].
      + destruct (le_lt_dec (n - (d - 1)) (S i)) as [He|He]; [|apply (G Di); [exact Hdi|fold n; exact He]].
        assert (d = 2)%nat by lia. rewrite LW in Hi. assert (Le : (a + (length stack - a + r + m + Nat.max r 1) <= n)%nat).
        { pose proof (f_equal (@length Z) HW) as LL. rewrite !app_length, LA, LW in LL. fold n in LL. lia. }
        destruct (window_edge (n / 2) (n mod 2) n n_D1 k r a m (length stack) i) as (E1 & E2 & E3 & E4);
          [exact Dm|exact Mb|unfold k; congruence|unfold r; congruence|unfold a; reflexivity|exact Lm|congruence|clear - Hn H; lia|exact Hi|clear - He H; lia|exact Le|].
        replace (nth i ss 0) with (nth 1 ss 0). replace (nth (S i) ss 0) with (nth 0 ss 0).
        * apply diso_sym. apply Hp; assumption.
        * rewrite Pal at 2. rewrite rev_nth by (fold n; clear - E1 E4; lia). f_equal. fold n; clear - E1 E4; lia.
        * rewrite Pal at 2. rewrite rev_nth by (fold n; clear - E1 E4; lia). f_equal. fold n; clear - E1 E4; lia.
      + assert (i = 0 /\ d = 2)%nat as [-> D2] by lia. apply Hp; auto; lia.
    - intros Co. apply (blocks_seg_inv _ (firstn a stack) _ B); [|lia]. rewrite <- HW, LA. eapply blocks_sub; [exact (GB Co)|lia|].
      pose proof (f_equal (@length Z) HW) as LL. rewrite !app_length, LA in LL. fold n in LL. lia. }
  (* a window that starts at the outermost ply contains the outer pair *)
  assert (Bad : forall p, In p (permutations r) -> group_ok c (out_window ss stack (arranged rem p)) = Ok true ->
     diso c = true -> d = 2%nat -> a = 0%nat -> diso_ok (delta_angle c) (nth 0 ss 0) (nth 1 ss 0)).
  { intros p Hp Hg Di D2 A0. rewrite <- Lrem in Hp. pose proof (arranged_perm rem p Hp) as Pp.
    assert (Fg : Forall angle_ok (arranged rem p)) by (apply (Permutation_Forall (Permutation_sym Pp)), Frem).
    destruct (Win (arranged rem p) ltac:(rewrite (Permutation_length Pp); exact Lrem) Fg) as (B & HW & LW). rewrite A0 in HW. cbn [firstn app] in HW.
    assert (FW : Forall angle_ok (out_window ss stack (arranged rem p))).
    { assert (Fst : Forall angle_ok stack) by (apply Forall_firstn, Fa).
      assert (Fm : Forall angle_ok (middle ss)) by (unfold middle; destruct (Nat.odd _); [|constructor]; constructor; [|constructor]; rewrite Forall_forall in Fa; apply Fa, nth_In; fold n; lia).
      assert (FF : Forall angle_ok ((stack ++ arranged rem p) ++ middle ss ++ rev (stack ++ arranged rem p))).
      { repeat (apply Forall_app; split); auto. apply Forall_rev, Forall_app; split; assumption. }
      rewrite HW in FF. apply Forall_app in FF. tauto. }
    apply group_ok_spec in Hg; [|exact R|exact FW]. destruct Hg as [P1 _]. specialize (P1 Di 0%nat ltac:(lia) ltac:(lia)).
    assert (Hi : forall i, (i < 2)%nat -> nth i (out_window ss stack (arranged rem p)) 0 = nth i ss 0).
    { intros i Hi. transitivity (nth i (out_window ss stack (arranged rem p) ++ B) 0); [rewrite app_nth1 by lia; reflexivity|]. rewrite <- HW, <- app_assoc, app_nth1 by lia.
      unfold stack. rewrite nth_firstn by lia. reflexivity. }
    rewrite !Hi in P1 by lia. exact P1. }
  assert (Ar : arranged rem (seq 0 r) = rem) by (rewrite <- Lrem; apply arranged_id).
  assert (A0 : d = 2%nat -> (a = 0 <-> n / 2 <= 2 * Nat.min n_D1 (n / 2 - 2) + 1)%nat).
  { intros D2. rewrite D2 in Hr. rewrite <- Hr. unfold a, r in *. lia. }
  destruct (smallest_row good) as [p|].
  - destruct Ch as (C1 & C2 & C3).
    assert (Ep : p = seq 0 r).
    { apply lex_id; [apply permutations_perm, C1|]. apply C3; [apply id_permutation|]. rewrite Ar. apply Id. intros. apply (Bad p); auto. }
    subst p. rewrite Ar. rewrite <- app_assoc, Whole. fold n. rewrite Nat.eqb_refl. cbn [negb].
    exists true. split; [reflexivity|]. split; [reflexivity|]. intros _ Di D2 Hsm. apply (Bad (seq 0 r)); auto. apply A0; assumption.
  - exists false. split; [rewrite Whole; reflexivity|]. split; [|discriminate]. intros Hp. exfalso. apply (Ch (seq 0 r) (id_permutation r)).
    rewrite Ar. apply Id. intros Di D2 Ha _. apply Hp; auto. apply A0; assumption.
Qed.
