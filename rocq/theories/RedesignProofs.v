(* RedesignProofs.v - invariants of the re-design of the ply drops *)
From Verif Require Import Base Uniq Constraints Guidelines SpecGuidelines Divers DiversProofs Spacing Strip StripProofs Format Search SearchProofs Objectives GateProofs SpecRedesign Redesign.
Local Open Scope Z_scope.

Lemma pick_in {A} idxs (l : list A) x : In x (pick idxs l) -> In x l.
Proof.
  unfold pick. rewrite in_flat_map. intros (i & _ & H). destruct (nth_error l i) as [y|] eqn:E; [|destruct H].
  destruct H as [<-|[]]. eapply nth_error_In, E.
Qed.
Lemma prune_ties_in {A} lim key (l r : list A) x : prune_ties lim key l = Ok r -> In x r -> In x l.
Proof.
  unfold prune_ties. destruct (Nat.ltb _ _); [|intros [= <-]; auto].
  destruct (ties _ _ _ _) as [idxs|]; cbn [bind]; [|discriminate]. intros [= <-]. apply pick_in.
Qed.
Lemma prune_best_in {A} lim key (l r : list A) x : prune_best lim key l = Ok r -> In x r -> In x l.
Proof.
  unfold prune_best. destruct (Nat.ltb _ _); [|intros [= <-]; auto].
  destruct (best_indices _ _) as [idxs|]; cbn [bind]; [|discriminate]. intros [= <-]. apply pick_in.
Qed.

Section Search.
Variables (branch : nat -> step -> node -> result (list layout)) (evaluate : step -> node -> layout -> result (option values_of)).
Variables (same : layout -> layout -> bool) (local_limit global_limit : nat).

Lemma visit_in s m l r : visit evaluate s m l = Ok r ->
  (forall x, In x (fst r) -> In x l /\ exists v, evaluate s m x = Ok (Some v)) /\
  (forall v, In v (snd r) -> exists x, In x l /\ evaluate s m x = Ok (Some v)) /\ length (fst r) = length (snd r).
Proof.
  revert r. induction l as [|x l IH]; intros r H; cbn [visit] in H.
  - injection H as <-. repeat split; cbn; intros; contradiction.
  - destruct (evaluate s m x) as [o|] eqn:E; [|discriminate]. cbn [bind] in H.
    destruct (visit evaluate s m l) as [r0|]; [|discriminate]. cbn [bind] in H. destruct (IH r0 eq_refl) as (A & B & C).
    destruct o as [v|]; injection H as <-.
    + cbn [fst snd]. split; [|split; [|cbn [length]; lia]].
      * intros y [<-|Hy]; [split; [now left|eauto]|]. destruct (A y Hy). split; [now right|assumption].
      * intros w [<-|Hw]; [exists x; split; [now left|assumption]|]. destruct (B w Hw) as (y & Hy & Ey). exists y. split; [now right|assumption].
    + split; [|split; [|exact C]].
      * intros y Hy. destruct (A y Hy). split; [now right|assumption].
      * intros w Hw. destruct (B w Hw) as (y & Hy & Ey). exists y. split; [now right|assumption].
Qed.

(** an invariant of the layouts and one of the values, that a candidate inherits *)
Variables (J : nat -> layout -> Prop) (K : nat -> values_of -> Prop).
Definition inherits (k : nat) (s : step) : Prop :=
  forall m l x v, J k (fst m) -> K k (snd m) -> branch k s m = Ok l -> In x l -> evaluate s m x = Ok (Some v) -> J (S k) x /\ K (S k) v.

Lemma expand_node_in final k s m r : inherits k s -> J k (fst m) -> K k (snd m) ->
  expand_node branch evaluate local_limit final k s m = Ok r -> Forall (fun y => J (S k) (fst y) /\ K (S k) (snd y)) r.
Proof.
  intros I HJ HK H. unfold expand_node in H.
  destruct (branch k s m) as [l0|] eqn:E0; [|discriminate]. cbn [bind] in H.
  destruct (prune_ties local_limit l_spacing l0) as [l1|] eqn:E1; [|discriminate]. cbn [bind] in H.
  unfold survivors in H. destruct (visit evaluate s m (rev l1)) as [r0|] eqn:E2; [|discriminate]. cbn [bind fst snd] in H.
  destruct (visit_in _ _ _ _ E2) as (A & B & _).
  assert (G : forall y, In y (List.combine (rev (fst r0)) (snd r0)) -> J (S k) (fst y) /\ K (S k) (snd y)).
  { intros [x v] Hy. pose proof (in_combine_l _ _ _ _ Hy) as Hx. apply in_combine_r in Hy. cbn [fst snd]. apply in_rev in Hx.
    destruct (A x Hx) as (Hx1 & v1 & Ev1). destruct (B v Hy) as (x1 & Hx2 & Ev2). apply in_rev in Hx1, Hx2.
    apply (prune_ties_in _ _ _ _ _ E1) in Hx1, Hx2. split; [apply (I m l0 x v1 HJ HK E0 Hx1 Ev1)|apply (I m l0 x1 v HJ HK E0 Hx2 Ev2)]. }
  rewrite Forall_forall. intros y Hy. apply G. destruct final; [injection H as <-; exact Hy|]. eapply prune_best_in; eauto.
Qed.
Lemma expand_all_in final k s ms r : inherits k s -> Forall (fun y => J k (fst y) /\ K k (snd y)) ms ->
  expand_all branch evaluate local_limit final k s ms = Ok r -> Forall (fun y => J (S k) (fst y) /\ K (S k) (snd y)) r.
Proof.
  intros I F. revert r. induction F as [|m ms [HJ HK] F IH]; intros r H; cbn [expand_all] in H; [injection H as <-; constructor|].
  destruct (expand_node _ _ _ _ _ _ m) as [a|] eqn:E; [|discriminate]. cbn [bind] in H.
  destruct (expand_all _ _ _ _ _ _ ms) as [b|]; [|discriminate]. cbn [bind] in H. injection H as <-.
  apply Forall_app. split; [eapply expand_node_in; eauto|]. apply IH; reflexivity.
Qed.
Lemma dedupe_in l x : In x (dedupe same l) -> In x l.
Proof. induction l as [|y l IH]; cbn [dedupe]; [auto|]. match goal with |- context [if ?b then _ else _] => destruct b end; [right; auto|]. intros [<-|H]; [now left|right; auto]. Qed.

Lemma search_in ss : forall k ms r, (forall j s, nth_error ss j = Some s -> inherits (k + j) s) ->
  Forall (fun y => J k (fst y) /\ K k (snd y)) ms ->
  search branch evaluate same local_limit global_limit k ss ms = Ok (Some r) ->
  r <> [] /\ Forall (fun y => J (k + length ss) (fst y) /\ K (k + length ss) (snd y)) r.
Proof.
  induction ss as [|s ss IH]; intros k ms r I F H; cbn [search] in H.
  - destruct ms as [|m ms]; [discriminate|]. injection H as <-. split; [discriminate|]. cbn [length]. rewrite Nat.add_0_r. exact F.
  - destruct ms as [|m ms]; [discriminate|]. set (final := match ss with [] => true | _ :: _ => false end) in *.
    destruct (expand_all _ _ _ _ _ _ (m :: ms)) as [l0|] eqn:E0; [|discriminate]. cbn [bind] in H.
    match type of H with bind ?z _ = _ => destruct z as [l2|] eqn:E2; [|discriminate] end. cbn [bind] in H.
    match type of H with bind ?z _ = _ => destruct z as [l3|] eqn:E3; [|discriminate] end. cbn [bind] in H.
    apply IH in H.
    + cbn [length]. rewrite <- Nat.add_succ_comm. exact H.
    + intros j s' Hj. rewrite Nat.add_succ_comm. apply I. exact Hj.
    + apply expand_all_in in E0; [|rewrite <- (Nat.add_0_r k); apply I; reflexivity|exact F].
      rewrite Forall_forall in E0 |- *. intros x Hx. apply E0, dedupe_in.
      destruct final; [injection E3 as <-; injection E2 as <-; exact Hx|].
      eapply prune_ties_in; [exact E2|]. eapply prune_best_in; eauto.
Qed.
End Search.

(* ------------------------------------------------------------------ *)
(** ** rows *)
Lemma py_index_nat n i : (i < n)%nat -> py_index n (Z.of_nat i) = Ok i.
Proof.
  intros H. unfold py_index. destruct (Z.leb_spec 0 (Z.of_nat i)); [|lia]. destruct (Z.ltb_spec (Z.of_nat i) (Z.of_nat n)); [|lia]. cbn [andb]. now rewrite Nat2Z.id.
Qed.
Lemma row_at_nat {A} (t : list (option A)) i x : row_at t (Z.of_nat i) = Ok x -> (i < length t)%nat -> nth i t None = Some x.
Proof. intros H L. unfold row_at in H. rewrite py_index_nat in H by exact L. cbn [bind] in H. destruct (nth i t None); [now injection H as ->|discriminate]. Qed.
Lemma set_row_nat {A} (t : list (option A)) i x : (i < length t)%nat -> set_row t (Z.of_nat i) x = Ok (upd i (Some x) t).
Proof. intros L. unfold set_row. rewrite py_index_nat by exact L. reflexivity. Qed.
Lemma drop_at_ok k r r' : drop_at k r = Ok r' -> (k < length r)%nat /\ r' = upd k (-1) r.
Proof. unfold drop_at. destruct (Nat.ltb_spec k (length r)); [intros [= <-]; auto|discriminate]. Qed.

Lemma kept_true x : kept x = true <-> x <> -1.
Proof. unfold kept. destruct (Z.eqb_spec x (-1)); cbn; split; congruence. Qed.
Lemma kept_plies r : filter kept r = plies_of r.
Proof. reflexivity. Qed.

Lemma zlen_cons {A} (x : A) l : zlen (x :: l) = zlen l + 1.
Proof. unfold zlen. cbn [length]. lia. Qed.
Lemma kept_upd k r : (k < length r)%nat -> nth k r 0 <> -1 -> zlen (plies_of (upd k (-1) r)) = zlen (plies_of r) - 1.
Proof.
  revert r. induction k as [|k IH]; intros [|x r] L H; cbn in L; try lia; cbn [upd nth] in *; unfold plies_of in *; cbn [filter].
  - change (negb (-1 =? dropped)) with false. cbv iota. destruct (Z.eqb_spec x dropped) as [->|N]; [now elim H|]. cbn [negb]. rewrite zlen_cons. lia.
  - specialize (IH r ltac:(lia) H). destruct (negb (x =? dropped)); rewrite ?zlen_cons; lia.
Qed.
Lemma drops_refl r : drops_from r r.
Proof. unfold drops_from. induction r; constructor; auto. Qed.
Lemma drops_trans r s t : drops_from r s -> drops_from s t -> drops_from r t.
Proof.
  unfold drops_from. intros H. revert t. induction H as [|x y r s E H IH]; intros t G.
  - exact G.
  - inversion G as [|y' z s' t' E' G']. subst. constructor; [|apply IH, G']. clear - E E'. destruct E as [->|E]; [exact E'|right; exact E].
Qed.
Lemma drops_upd k r : drops_from (upd k (-1) r) r.
Proof. unfold drops_from. revert k. induction r as [|x r IH]; intros [|k]; cbn; constructor; auto. apply drops_refl. Qed.
Lemma drops_length r s : drops_from r s -> length r = length s.
Proof. induction 1; cbn; auto. Qed.

(** mirrored drop *)
Lemma mirror_upd k x r : (k < length r)%nat -> palindrome r -> palindrome (upd (length r - k - 1) x (upd k x r)).
Proof.
  intros L P. unfold palindrome in *. apply (list_ext _ _ 0); [rewrite rev_length; reflexivity|]. rewrite !upd_length. intros i Hi.
  rewrite rev_nth by (rewrite !upd_length; exact Hi). rewrite !upd_length. rewrite !nth_upd, !upd_length.
  assert (E : nth i r 0 = nth (length r - S i) r 0) by (rewrite P at 1; rewrite rev_nth by exact Hi; reflexivity).
  repeat match goal with |- context [Nat.eqb ?a ?b] => destruct (Nat.eqb_spec a b) end;
  repeat match goal with |- context [Nat.ltb ?a ?b] => destruct (Nat.ltb_spec a b) end; cbn [andb]; try lia; congruence.
Qed.


Lemma argmin_lt l k : argmin l = Ok k -> (k < length l)%nat.
Proof. intros H. destruct l as [|x l]; [discriminate|]. destruct (argmin_ok (x :: l) ltac:(discriminate)) as (i & E & L & _). congruence. Qed.

Lemma replace_rows_ok {A} k : forall news (t t' : list A), replace_rows k news t = Ok t' ->
  length t' = length t /\ (forall j dflt, (k <= j)%nat -> nth j t' dflt = nth j t dflt) /\ (forall j dflt, (j < k)%nat -> nth j news None = Some (nth j t' dflt)).
Proof.
  induction k as [|k IH]; intros news t t' H; cbn [replace_rows] in H.
  - injection H as <-. repeat split; auto. intros; lia.
  - destruct t as [|x t]; [discriminate|]. destruct news as [|[y|] news]; try discriminate.
    destruct (replace_rows k news t) as [r|] eqn:E; [|discriminate]. cbn [bind] in H. injection H as <-. destruct (IH _ _ _ E) as (A1 & A2 & A3).
    split; [cbn [length]; lia|]. split.
    + intros [|j] dflt Hj; [lia|]. cbn [nth]. apply A2. lia.
    + intros [|j] dflt Hj; cbn [nth]; [reflexivity|]. apply A3. lia.
Qed.

(** ** thick to thin *)
Section Thin.
Variable c : cons.
Variable st : strip.
Variable lampam : list Z -> list Q.
Variable dist : list Q -> Q.
Variables (targets weights : list (list Q)) (panel_weightings : list Q).
Variables (plies : list Z) (ref : nat) (pdl_ref : list Z).
Local Notation du := (drop_unit (sym c)).
Local Notation nref := (nth ref plies 0).
Let N := n_max plies.
Definition outer (n : nat) (i : nat) : Prop := (i < n \/ (N - n <= i < N))%nat.
Definition half : nat := if sym c then (N / 2)%nat else N.

Definition fit (used : list nat) (r : list Z) : Prop :=
  length r = N /\ drops_from r pdl_ref /\ (sym c = true -> palindrome r) /\
  (forall q, (q < half)%nat -> nth q r 0 = -1 -> In q used) /\
  (covering c = true -> forall i, outer (n_covering c) i -> nth i r 0 = nth i pdl_ref 0).
Definition checked (r : list Z) : Prop :=
  breaks_contig c (plies_of r) = Ok false /\
  (rule_10_percent c = true -> rule_10_Abdalla c = true -> (dist (lampam (plies_of r)) == 0)%Q).
Definition skew (q : list Z) (a : Z) : Z :=
  match q with [] => 0 | x :: _ => if a =? x then - du else if a =? - x then du else 0 end.
Definition exact_bal (q : list Z) (r : list Z) : Prop :=
  bal c = true -> forall a, off_axis a -> excess_at a (plies_of r) = excess_at a (plies_of pdl_ref) + skew q a.
Definition near_bal (r : list Z) : Prop :=
  bal c = true -> forall a, off_axis a -> Z.abs (excess_at a (plies_of r) - excess_at a (plies_of pdl_ref)) <= du.

Lemma exact_near q r : exact_bal q r -> near_bal r.
Proof.
  intros H B a Ha. rewrite (H B a Ha). unfold skew, drop_unit. destruct q as [|x q]; [destruct (sym c); lia|].
  destruct (a =? x), (a =? - x), (sym c); lia.
Qed.
Lemma fit_more used used' r : (forall x, In x used -> In x used') -> fit used r -> fit used' r.
Proof. intros I (A & B & C & D & E). repeat (split; auto). Qed.

Lemma count_drop a k r : (k < length r)%nat -> nth k r 0 <> -1 ->
  count a (plies_of (upd k (-1) r)) = count a (plies_of r) - (if a =? nth k r 0 then 1 else 0).
Proof.
  revert r. induction k as [|k IH]; intros [|x r] L H; cbn in L; try lia; cbn [upd nth] in *; unfold plies_of in *; cbn [filter].
  - change (negb (-1 =? dropped)) with false. cbv iota. destruct (Z.eqb_spec x dropped) as [->|X]; [now elim H|]. cbn [negb]. rewrite count_cons.
    destruct (Z.eq_dec x a), (Z.eqb_spec a x); lia.
  - specialize (IH r ltac:(lia) H). destruct (negb (x =? dropped)); rewrite ?count_cons; lia.
Qed.

(** *** one unit dropped *)
Definition drop_pair (k : nat) (r : list Z) : list Z := if sym c then upd (N - k - 1) (-1) (upd k (-1) r) else upd k (-1) r.

Lemma drops_nth r t k : drops_from r t -> nth k r 0 = nth k t 0 \/ nth k r 0 = -1.
Proof. intros H. revert k. induction H as [|x y r t E H IH]; intros [|k]; cbn [nth]; auto. Qed.

Lemma half_le : (half <= N)%nat.
Proof. unfold half. destruct (sym c); [|lia]. apply Nat.div_le_upper_bound; lia. Qed.
Lemma half_mirror k : sym c = true -> (k < half)%nat -> (half <= N - k - 1 < N)%nat.
Proof.
  unfold half. intros -> H. pose proof (Nat.div_mod_eq N 2). pose proof (Nat.mod_upper_bound N 2 ltac:(lia)). lia.
Qed.

Section Drop.
Variables (used : list nat) (r : list Z) (k : nat).
Hypothesis F : fit used r.
Hypothesis Hk : (k < half)%nat.
Hypothesis Hn : ~ In k used.

Lemma kept_here : (k < length r)%nat /\ nth k r 0 <> -1 /\ nth k r 0 = nth k pdl_ref 0.
Proof using F Hk Hn.
  destruct F as (A & B & _ & D & _). pose proof half_le. split; [lia|].
  assert (nth k r 0 <> -1) by (intros X; apply Hn, D; auto). split; [assumption|]. destruct (drops_nth r pdl_ref k B); congruence.
Qed.
Lemma kept_mirror : sym c = true -> (N - k - 1 < length r)%nat /\ (N - k - 1 <> k)%nat /\ nth (N - k - 1) r 0 = nth k r 0.
Proof using F Hk Hn.
  intros Y. destruct F as (A & _ & C & _). pose proof half_le. pose proof (half_mirror k Y Hk). split; [lia|]. split; [lia|].
  pose proof (C Y) as P. unfold palindrome in P. rewrite P at 1. rewrite rev_nth by lia. f_equal. lia.
Qed.
Lemma nth_mirror : sym c = true -> nth (N - k - 1) (upd k (-1) r) 0 = nth k r 0.
Proof using F Hk Hn.
  intros Y. destruct (kept_mirror Y) as (A & B & C). rewrite nth_upd. destruct (Nat.eqb_spec k (N - k - 1)); [congruence|]. exact C.
Qed.
Lemma drop_zlen : zlen (plies_of (drop_pair k r)) = zlen (plies_of r) - du.
Proof using F Hk Hn.
  destruct kept_here as (A & B & _). unfold drop_pair, drop_unit. destruct (sym c) eqn:Y.
  - destruct (kept_mirror Y) as (A' & _ & _). rewrite kept_upd; [|rewrite upd_length; exact A'|rewrite nth_mirror by exact Y; exact B].
    rewrite kept_upd by assumption. lia.
  - rewrite kept_upd by assumption. reflexivity.
Qed.
Lemma drop_count a : count a (plies_of (drop_pair k r)) = count a (plies_of r) - (if a =? nth k pdl_ref 0 then du else 0).
Proof using F Hk Hn.
  destruct kept_here as (A & B & E). rewrite <- E. unfold drop_pair, drop_unit. destruct (sym c) eqn:Y.
  - destruct (kept_mirror Y) as (A' & _ & _). rewrite count_drop; [|rewrite upd_length; exact A'|rewrite nth_mirror by exact Y; exact B].
    rewrite nth_mirror by exact Y. rewrite count_drop by assumption. destruct (a =? nth k r 0); lia.
  - rewrite count_drop by assumption. destruct (a =? nth k r 0); lia.
Qed.
Lemma drop_drops : drops_from (drop_pair k r) r.
Proof using. unfold drop_pair. destruct (sym c); [eapply drops_trans; [apply drops_upd|]|]; apply drops_upd. Qed.
Hypothesis Hc : covering c = true -> (n_covering c <= k)%nat /\ (k < N - n_covering c)%nat.
Lemma drop_fit : fit (used ++ [k]) (drop_pair k r).
Proof using F Hk Hn Hc.
  pose proof F as (A & B & C & D & E). split; [|split; [|split; [|split]]].
  - unfold drop_pair. destruct (sym c); rewrite ?upd_length; exact A.
  - eapply drops_trans; [apply drop_drops|exact B].
  - intros Y. unfold drop_pair. rewrite Y. rewrite <- A. apply mirror_upd; [apply kept_here|apply C, Y].
  - intros q Hq Z0. apply in_app_iff. destruct (Nat.eq_dec q k) as [->|X]; [right; now left|]. left. apply D; [exact Hq|].
    unfold drop_pair in Z0. destruct (sym c) eqn:Y.
    + pose proof (half_mirror k Y Hk). rewrite !nth_upd in Z0. destruct (Nat.eqb_spec (N - k - 1) q); [lia|]. cbn [andb] in Z0.
      destruct (Nat.eqb_spec k q); [congruence|]. exact Z0.
    + rewrite nth_upd in Z0. destruct (Nat.eqb_spec k q); [congruence|]. exact Z0.
  - intros V i Hi. destruct (Hc V) as (H1 & H2). rewrite <- (E V i Hi). unfold outer in Hi. unfold drop_pair. destruct (sym c) eqn:Y.
    + pose proof (half_mirror k Y Hk). rewrite !nth_upd. destruct (Nat.eqb_spec (N - k - 1) i).
      * exfalso. lia.
      * cbn [andb]. destruct (Nat.eqb_spec k i); [|reflexivity]. exfalso. unfold half in *. rewrite Y in *. lia.
    + rewrite nth_upd. destruct (Nat.eqb_spec k i); [exfalso; lia|reflexivity].
Qed.
End Drop.
Hypothesis Hs : StronglySorted Z.lt plies.
Hypothesis Href : (ref < length plies)%nat.
Hypothesis Hpar : sym c = true -> forall i, (i < length plies)%nat -> Z.even (nth i plies 0) = Z.even (nth ref plies 0).

(** *** the invariant *)
Definition left_at (k : nat) : Z := nref - du * Z.of_nat k.
Definition thin_inv (k : nat) (x : layout) : Prop :=
  length (l_pdl x) = length plies /\ nth ref (l_pdl x) None = Some pdl_ref /\
  (forall j, (j < ref)%nat -> left_at k < nth (S j) plies 0 ->
     exists r t, nth j (l_pdl x) None = Some r /\ nth (S j) (l_pdl x) None = Some t /\ drops_from r t /\ fit (l_used x) r /\
       zlen (plies_of r) = Z.max (nth j plies 0) (left_at k) /\ checked r /\ near_bal r) /\
  (exists j r, (j <= ref)%nat /\ nth j plies 0 <= left_at k /\ ((j < ref)%nat -> left_at k < nth (S j) plies 0) /\
     nth j (l_pdl x) None = Some r /\ fit (l_used x) r /\ zlen (plies_of r) = left_at k /\ exact_bal (l_queue x) r).

Lemma children_in {A B} (f : A -> result (option B)) l r y : children f l = Ok r -> In y r -> exists x, In x l /\ f x = Ok (Some y).
Proof.
  revert r. induction l as [|x l IH]; intros r H I; cbn [children] in H; [injection H as <-; destruct I|].
  destruct (f x) as [o|] eqn:E; [|discriminate]. cbn [bind] in H. destruct (children f l) as [r0|]; [|discriminate]. cbn [bind] in H.
  destruct o as [z|]; injection H as <-.
  - destruct I as [<-|I]; [exists x; split; [now left|exact E]|]. destruct (IH r0 eq_refl I) as (x' & ? & ?). exists x'. split; [now right|assumption].
  - destruct (IH r0 eq_refl I) as (x' & ? & ?). exists x'. split; [now right|assumption].
Qed.

Lemma thin_positions_in ps k : thin_positions c plies = Ok ps -> In k ps ->
  (k < half)%nat /\ (covering c = true -> (n_covering c <= k)%nat /\ (k < N - n_covering c)%nat).
Proof using.
  clear Hs Hpar Href. intros H I. unfold thin_positions in H. fold N in H.
  assert (G : forall n, In k (if sym c then seq n (N / 2 - n) else seq n (N - n - n)) -> (k < half)%nat /\ (n <= k < N - n)%nat).
  { intros n G. unfold half. destruct (sym c); apply in_seq in G; [|lia]. pose proof (Nat.div_mod_eq N 2). lia. }
  destruct (covering c).
  - destruct (Nat.eqb_spec (n_covering c) 1) as [E|E]; [injection H as <-; specialize (G 1%nat I); rewrite E; lia|].
    destruct (Nat.eqb_spec (n_covering c) 2) as [E'|E']; [injection H as <-; specialize (G 2%nat I); rewrite E'; lia|discriminate].
  - injection H as <-. specialize (G 0%nat I). split; [apply G|discriminate].
Qed.
Lemma not_used k used : negb (existsb (Nat.eqb k) used) = true -> ~ In k used.
Proof. intros H I. apply negb_true_iff in H. apply not_true_iff_false in H. apply H, existsb_exists. exists k. split; [exact I|apply Nat.eqb_refl]. Qed.

Lemma exact_drop used q q' r k : fit used r -> (k < half)%nat -> ~ In k used -> exact_bal q r ->
  (bal c = true -> queue_allows q (nth k pdl_ref 0) = true /\ q' = next_queue c q (nth k pdl_ref 0)) ->
  exact_bal q' (drop_pair k r).
Proof using.
  clear Hs Hpar Href. intros F Hk Hn E Q B a Ha. destruct (Q B) as (Qa & ->). unfold excess_at. rewrite !(drop_count used r k F Hk Hn).
  specialize (E B a Ha). unfold excess_at in E. unfold next_queue. rewrite B. unfold off_axis in Ha. unfold skew in *.
  destruct q as [|x q].
  - destruct (Z.eqb_spec (nth k pdl_ref 0) 0) as [Z0|Z0]; cbn [orb]; [destruct (Z.eqb_spec a (nth k pdl_ref 0)), (Z.eqb_spec (- a) (nth k pdl_ref 0)); lia|].
    destruct (Z.eqb_spec (nth k pdl_ref 0) 90) as [Z9|Z9]; cbn [orb]; [destruct (Z.eqb_spec a (nth k pdl_ref 0)), (Z.eqb_spec (- a) (nth k pdl_ref 0)); lia|].
    destruct (Z.eqb_spec a (nth k pdl_ref 0)), (Z.eqb_spec (- a) (nth k pdl_ref 0)), (Z.eqb_spec a (- nth k pdl_ref 0)); lia.
  - cbn [queue_allows] in Qa. apply Z.eqb_eq in Qa. rewrite Qa.
    destruct (Z.eqb_spec a (- x)), (Z.eqb_spec (- a) (- x)), (Z.eqb_spec a x); lia.
Qed.

Lemma thin_child_ok s m k x : thin_child c st plies pdl_ref s m k = Ok (Some x) ->
  exists row row2, (if s_new s then row_at (l_pdl (fst m)) (s_panel s + 1) else row_at (l_pdl (fst m)) (s_panel s)) = Ok row /\
    row2 = drop_pair k row /\ set_row (l_pdl (fst m)) (s_panel s) row2 = Ok (l_pdl x) /\
    l_used x = l_used (fst m) ++ [k] /\ l_last x = k /\
    (bal c = true -> queue_allows (l_queue (fst m)) (nth k pdl_ref 0) = true /\ l_queue x = next_queue c (l_queue (fst m)) (nth k pdl_ref 0)).
Proof using.
  clear Hs Hpar Href. intros H. unfold thin_child in H.
  match type of H with bind ?z _ = _ => destruct z as [a|] eqn:Ea; [|discriminate] end. cbn [bind] in H.
  match type of H with (if ?b then _ else _) = _ => destruct b eqn:Q; [discriminate|] end.
  match type of H with bind ?z _ = _ => destruct z as [row|] eqn:Er; [|discriminate] end. cbn [bind] in H.
  match type of H with bind ?z _ = _ => destruct z as [row1|] eqn:E1; [|discriminate] end. cbn [bind] in H.
  match type of H with bind ?z _ = _ => destruct z as [row2|] eqn:E2; [|discriminate] end. cbn [bind] in H.
  match type of H with bind ?z _ = _ => destruct z as [pdl|] eqn:Es; [|discriminate] end. cbn [bind] in H.
  match type of H with bind ?z _ = _ => destruct z as [sp|] eqn:Ep; [|discriminate] end. cbn [bind] in H.
  injection H as <-. exists row, row2. split; [reflexivity|]. apply drop_at_ok in E1. destruct E1 as (L1 & ->).
  split; [|split; [exact Es|split; [reflexivity|split; [reflexivity|]]]].
  - unfold drop_pair. fold N in E2. destruct (sym c); [apply drop_at_ok in E2; apply E2|now injection E2 as <-].
  - intros B. rewrite B in *. cbn [andb] in Q. apply negb_false_iff in Q. destruct (nth_error pdl_ref k) as [a'|] eqn:En; [|discriminate].
    injection Ea as <-. rewrite (nth_error_nth pdl_ref k 0 En). split; [exact Q|reflexivity].
Qed.

Lemma thin_evaluate_ok s m x v : thin_evaluate c lampam dist targets weights panel_weightings plies pdl_ref s m x = Ok (Some v) ->
  exists row, row_at (l_pdl x) (s_panel s) = Ok row /\ checked row.
Proof using.
  clear Hs Hpar Href. intros H. unfold thin_evaluate in H. cbv zeta in H.
  match type of H with bind ?z _ = _ => destruct z as [row|] eqn:Er; [|discriminate] end. cbn [bind] in H. exists row. split; [reflexivity|].
  repeat match type of H with
  | bind (breaks_contig _ _) _ = _ => fail 1
  | bind ?z _ = _ => destruct z; [|discriminate]; cbn [bind] in H
  end.
  rewrite kept_plies in H.
  destruct (breaks_contig c (plies_of row)) as [[|]|] eqn:Eb; try discriminate. cbn [bind] in H.
  match type of H with bind ?z _ = _ => destruct z as [lps|]; [|discriminate] end. cbn [bind] in H.
  match type of H with bind ?z _ = _ => destruct z as [[|]|] eqn:Et; try discriminate end.
  split; [exact Eb|]. intros R A. unfold breaks_10 in Et. rewrite R, A in Et. injection Et as Et. apply negb_false_iff in Et. apply Qeq_bool_iff, Et.
Qed.

Lemma thin_inherits k s : thin_row (sym c) plies ref k s ->
  inherits (thin_branch c st plies pdl_ref) (thin_evaluate c lampam dist targets weights panel_weightings plies pdl_ref) thin_inv (fun _ _ => True) k s.
Proof.
  intros (i & Hi & S1 & S2 & S3 & S4 & S5 & S6 & S7 & S8) m l x v J _ Hb Hx He. split; [|exact I].
  unfold thin_branch in Hb. destruct (thin_positions c plies) as [ps|] eqn:Ep; [|discriminate]. cbn [bind] in Hb.
  destruct (children_in _ _ _ _ Hb Hx) as (p & Hp & Hc). apply filter_In in Hp. destruct Hp as (Hp & Hu). apply not_used in Hu.
  destruct (thin_positions_in ps p Ep Hp) as (Hh & Hcov).
  destruct (thin_child_ok s m p x Hc) as (row & row2 & Er & E2 & Es & Eu & El & Eq).
  destruct (thin_evaluate_ok s m x v He) as (row' & Er' & Ck).
  destruct J as (L & R & G & (j0 & r0 & J1 & J2 & J3 & J4 & J5 & J6 & J7)).
  set (b := left_at k) in *. assert (B' : left_at (S k) = b - du) by (unfold b, left_at; lia).
  assert (Bs : s_before s = b) by (unfold b, left_at; exact S3). rewrite Bs in *. clear S3. rewrite S4 in S5. clear S4.
  assert (Hd : 0 < du) by (unfold drop_unit; destruct (sym c); lia).
  assert (MO : forall a e, (a < e < length plies)%nat -> nth a plies 0 + du <= nth e plies 0) by exact (mono (sym c) plies ref Hs Href Hpar).
  assert (ML : forall a e, (a <= e < length plies)%nat -> nth a plies 0 <= nth e plies 0).
  { intros a e Hae. destruct (Nat.eq_dec a e) as [->|]; [lia|]. specialize (MO a e ltac:(lia)). lia. }
  rewrite S1 in *.
  (* the source row *)
  assert (Src : row = r0 /\ (s_new s = true -> j0 = S i) /\ (s_new s = false -> j0 = i)).
  { destruct (s_new s) eqn:W.
    - assert (Eb : b = nth (S i) plies 0) by (apply S7; reflexivity).
      assert (j0 = S i).
      { destruct (lt_eq_lt_dec j0 (S i)) as [[X|X]|X]; [|exact X|].
        - specialize (J3 ltac:(lia)). pose proof (ML (S j0) (S i) ltac:(lia)). lia.
        - pose proof (MO (S i) j0 ltac:(lia)). lia. }
      subst j0. replace (Z.of_nat i + 1) with (Z.of_nat (S i)) in Er by lia. apply row_at_nat in Er; [|lia]. split; [congruence|split; [auto|discriminate]].
    - assert (Eb : b < nth (S i) plies 0) by (assert (b <> nth (S i) plies 0) by (intros X; apply S7 in X; discriminate); lia).
      assert (j0 = i).
      { destruct (lt_eq_lt_dec j0 i) as [[X|X]|X]; [|exact X|].
        - specialize (J3 ltac:(lia)). pose proof (ML (S j0) i ltac:(lia)). lia.
        - pose proof (ML (S i) j0 ltac:(lia)). lia. }
      subst j0. apply row_at_nat in Er; [|lia]. split; [congruence|split; [discriminate|auto]]. }
  destruct Src as (-> & SrcN & SrcO).
  rewrite set_row_nat in Es by lia. injection Es as Es.
  assert (Fx : fit (l_used x) row2) by (rewrite Eu, E2; apply drop_fit; assumption).
  assert (Zx : zlen (plies_of row2) = b - du) by (rewrite E2, (drop_zlen (l_used (fst m))) by assumption; lia).
  assert (Bx : exact_bal (l_queue x) row2) by (rewrite E2; eapply exact_drop; eauto).
  assert (row' = row2).
  { rewrite <- Es in Er'. apply row_at_nat in Er'; [|rewrite upd_length; lia]. rewrite nth_upd in Er'.
    destruct (Nat.eqb_spec i i); [|lia]. destruct (Nat.ltb_spec i (length (l_pdl (fst m)))); [|lia]. cbn [andb] in Er'. congruence. }
  subst row'.
  assert (Nx : forall j, nth j (l_pdl x) None = if Nat.eqb i j then Some row2 else nth j (l_pdl (fst m)) None).
  { intros j. rewrite <- Es, nth_upd. destruct (Nat.eqb i j); [|reflexivity]. destruct (Nat.ltb_spec i (length (l_pdl (fst m)))); [reflexivity|lia]. }
  unfold thin_inv. rewrite B'. split; [|split; [|split]].
  - rewrite <- Es, upd_length. exact L.
  - rewrite Nx. destruct (Nat.eqb_spec i ref); [lia|exact R].
  - intros j Hj Hlt. destruct (Nat.eq_dec j i) as [->|Hji].
    + assert (exists t, nth (S i) (l_pdl (fst m)) None = Some t /\ drops_from r0 t) as (t & Et & Dt).
      { destruct (s_new s).
        - rewrite (SrcN eq_refl) in J4. exists r0. split; [exact J4|apply drops_refl].
        - rewrite (SrcO eq_refl) in J4. rewrite (SrcO eq_refl) in J3. destruct (G i Hj (J3 Hj)) as (r1 & t & G1 & G2 & G3 & _).
          exists t. split; [exact G2|]. congruence. }
      exists row2, t. rewrite !Nx. rewrite Nat.eqb_refl. destruct (Nat.eqb_spec i (S i)); [lia|]. split; [reflexivity|]. split; [exact Et|].
      split; [rewrite E2; eapply drops_trans; [apply drop_drops|exact Dt]|]. split; [exact Fx|]. split; [lia|]. split; [exact Ck|]. eapply exact_near, Bx.
    + assert (i < j)%nat. { destruct (le_lt_dec j i); [|lia]. pose proof (ML (S j) i ltac:(lia)). lia. }
      pose proof (ML (S i) j ltac:(lia)). pose proof (MO j (S j) ltac:(lia)).
      destruct (G j Hj ltac:(lia)) as (r1 & t & G1 & G2 & G3 & G4 & G5 & G6 & G7). exists r1, t. rewrite !Nx.
      destruct (Nat.eqb_spec i j); [lia|]. destruct (Nat.eqb_spec i (S j)); [lia|]. repeat (split; [assumption|]).
      split; [rewrite Eu; eapply fit_more; [|exact G4]; intros; apply in_app_iff; now left|]. split; [lia|]. split; assumption.
  - exists i, row2. split; [lia|]. split; [lia|]. split; [lia|]. split; [rewrite Nx, Nat.eqb_refl; reflexivity|]. split; [exact Fx|]. split; [lia|exact Bx].
Qed.

(** *** start and end *)
Hypothesis Hlen : length pdl_ref = N.
Hypothesis Hsym : sym c = true -> palindrome pdl_ref.
Hypothesis Hcnt : zlen (plies_of pdl_ref) = nref.

Lemma thin_start_inv ss_ref lp m : thin_start c plies ref pdl_ref ss_ref lp = Ok m -> thin_inv 0 (fst m).
Proof.
  intros H. unfold thin_start in H. destruct (count_plies _ _ _) as [counts|]; [|discriminate]. cbn [bind] in H. injection H as <-. cbn [fst].
  assert (MO : forall a e, (a < e < length plies)%nat -> nth a plies 0 + du <= nth e plies 0) by exact (mono (sym c) plies ref Hs Href Hpar).
  assert (Hd : 0 < du) by (unfold drop_unit; destruct (sym c); lia).
  assert (L0 : left_at 0 = nref) by (unfold left_at; lia).
  set (used := filter _ _).
  assert (F : fit used pdl_ref).
  { split; [exact Hlen|]. split; [apply drops_refl|]. split; [exact Hsym|]. split; [|reflexivity].
    intros q Hq E. unfold used. apply filter_In. split; [apply in_seq; split; [lia|]; exact Hq|]. apply Z.eqb_eq, E. }
  assert (Nr : nth ref (upd ref (Some pdl_ref) (nones plies)) None = Some pdl_ref).
  { unfold nones. rewrite nth_upd, repeat_length, Nat.eqb_refl. destruct (Nat.ltb_spec ref (length plies)); [reflexivity|lia]. }
  unfold thin_inv. cbn [l_pdl l_used l_queue]. rewrite L0. split; [unfold nones; rewrite upd_length, repeat_length; reflexivity|]. split; [exact Nr|]. split.
  - intros j Hj Hlt. exfalso. destruct (Nat.eq_dec (S j) ref) as [E|E]; [rewrite E in Hlt; lia|]. pose proof (MO (S j) ref ltac:(lia)). lia.
  - exists ref, pdl_ref. split; [lia|]. split; [lia|]. split; [lia|]. split; [exact Nr|]. split; [exact F|]. split; [exact Hcnt|].
    intros B a Ha. cbn [skew]. lia.
Qed.

Definition redesigned (sst' : list (list Z)) (j : nat) : Prop :=
  let r := nth j sst' [] in
  drops_from r (nth (S j) sst' []) /\ length r = N /\ zlen (plies_of r) = nth j plies 0 /\ (sym c = true -> palindrome r) /\
  (covering c = true -> forall i, outer (n_covering c) i -> nth i r 0 = nth i pdl_ref 0) /\ checked r /\ near_bal r.

Lemma thin_result local_limit global_limit table sst lps ss done sst' lps' ss' :
  thin_table (sym c) plies ref = Ok table -> nth_error sst ref = Some pdl_ref ->
  repair_thick_to_thin c st lampam dist targets weights panel_weightings plies ref local_limit global_limit table (sst, lps, ss) = Ok (done, (sst', lps', ss')) ->
  (done = false -> (sst', lps', ss') = (sst, lps, ss)) /\
  (done = true ->
     (length sst' = length sst /\ length lps' = length lps /\ length ss' = length ss) /\
     (forall j, (ref <= j)%nat -> nth j sst' [] = nth j sst [] /\ nth j lps' [] = nth j lps [] /\ nth j ss' [] = nth j ss []) /\
     forall j, (j < ref)%nat -> redesigned sst' j /\ nth j ss' [] = plies_of (nth j sst' [])).
Proof.
  intros HT Hr H. destruct (thin_table_spec (sym c) plies ref Hs Href Hpar) as (T0 & T1).
  unfold repair_thick_to_thin in H. destruct table as [steps|].
  2: { injection H as <- <- <- <-. split; [discriminate|]. intros _. split; [auto|]. split; [auto|]. intros j Hj. destruct (T1 ltac:(lia)) as (t & E & _). congruence. }
  assert (Hpos : (0 < ref)%nat) by (destruct ref; [rewrite T0 in HT by reflexivity; discriminate|lia]).
  destruct (T1 Hpos) as (t & Et & Lt & Rt). rewrite HT in Et. injection Et as <-.
  assert (row sst ref = Ok pdl_ref) as Rr by (unfold row; rewrite Hr; reflexivity). rewrite Rr in H. cbn [bind] in H.
  destruct (row lps ref) as [lp|]; [|discriminate]. cbn [bind] in H. destruct (row ss ref) as [ssr|]; [|discriminate]. cbn [bind] in H.
  destruct (thin_start c plies ref pdl_ref ssr lp) as [m|] eqn:Em; [|discriminate]. cbn [bind] in H.
  match type of H with bind ?z _ = _ => destruct z as [[nodes|]|] eqn:Es; [| |discriminate] end; cbn [bind] in H.
  2: { injection H as <- <- <- <-. split; [auto|discriminate]. }
  apply (search_in _ _ _ _ _ thin_inv (fun _ _ => True)) in Es.
  2: { intros j s Hj. assert (j < length steps)%nat by (apply nth_error_Some; congruence). destruct (Rt j H0) as (s' & E' & R'). assert (s' = s) as -> by congruence. apply thin_inherits, R'. }
  2: { constructor; [|constructor]. split; [eapply thin_start_inv, Em|exact I]. }
  destruct Es as (Ne & Fr). cbn [Nat.add] in Fr.
  destruct (argmin _) as [k|] eqn:Ek; [|discriminate]. cbn [bind] in H. apply argmin_lt in Ek. rewrite map_length in Ek. rename Ek into Lk.
  rewrite Forall_forall in Fr. destruct (Fr (nth k nodes m) (nth_In _ _ Lk)) as (J & _). set (best := nth k nodes m) in *.
  destruct (replace_rows ref (l_pdl (fst best)) sst) as [a1|] eqn:E1; [|discriminate]. cbn [bind] in H.
  destruct (replace_rows ref (v_lampam (snd best)) lps) as [a2|] eqn:E2; [|discriminate]. cbn [bind] in H.
  destruct (replace_rows ref _ ss) as [a3|] eqn:E3; [|discriminate]. cbn [bind] in H.
  repeat match type of H with bind ?z _ = _ => destruct z; [|discriminate]; cbn [bind] in H end. injection H as <- <- <- <-.
  apply replace_rows_ok in E1, E2, E3. destruct E1 as (L1 & K1 & N1), E2 as (L2 & K2 & N2), E3 as (L3 & K3 & N3).
  split; [discriminate|]. intros _. split; [auto|]. split; [intros j Hj; rewrite K1, K2, K3 by exact Hj; auto|].
  intros j Hj. destruct J as (JL & JR & JG & _).
  assert (LE : left_at (length steps) = nth 0 plies 0) by (unfold left_at; unfold zlen in Lt; lia). rewrite LE in *.
  assert (MO : forall a e, (a < e < length plies)%nat -> nth a plies 0 + du <= nth e plies 0) by exact (mono (sym c) plies ref Hs Href Hpar).
  assert (Hd : 0 < du) by (unfold drop_unit; destruct (sym c); lia).
  destruct (JG j Hj) as (r & t & G1 & G2 & G3 & G4 & G5 & G6 & G7). { pose proof (MO 0%nat (S j) ltac:(lia)). lia. }
  assert (Er : nth j a1 [] = r) by (pose proof (N1 j [] Hj); congruence).
  assert (Etl : nth (S j) a1 [] = t).
  { destruct (Nat.eq_dec (S j) ref) as [E|E]; [|pose proof (N1 (S j) [] ltac:(lia)); congruence].
    rewrite K1 by lia. rewrite E in *. rewrite (nth_error_nth _ _ [] Hr). congruence. }
  destruct G4 as (F1 & F2 & F3 & F4 & F5).
  split.
  - unfold redesigned. cbv zeta. rewrite Er, Etl. split; [exact G3|]. split; [exact F1|]. split.
    + rewrite G5. destruct j as [|j]; [lia|]. pose proof (MO 0%nat (S j) ltac:(lia)). lia.
    + split; [exact F3|]. split; [exact F5|]. split; assumption.
  - rewrite Er. pose proof (N3 j [] Hj) as X. change (@None (list Z)) with (option_map (filter kept) None) in X. rewrite map_nth, G1 in X. cbn [option_map] in X. injection X as X. rewrite kept_plies in X. congruence.
Qed.
End Thin.
