(* GuidelinesProofs.v - lemmas relating Guidelines.v to SpecGuidelines.v *)
From Verif Require Import Base Uniq Constraints Guidelines SpecGuidelines.
From Coq Require Import Lqa.

(* ------------------------------------------------------------------ *)
(** * Monadic helpers *)
Lemma mapM_ok {A B} (f : A -> result B) (g : A -> B) l :
  (forall x, In x l -> f x = Ok (g x)) -> mapM f l = Ok (map g l).
Proof.
  induction l as [|a t IH]; intros H; cbn [mapM map]; [reflexivity|].
  rewrite H by (left; reflexivity); cbn [bind].
  rewrite IH by (intros x Hx; apply H; right; exact Hx); reflexivity.
Qed.

Lemma mapM_inv {A B} (f : A -> result B) l r :
  mapM f l = Ok r -> Forall2 (fun a b => f a = Ok b) l r.
Proof.
  revert r; induction l as [|a t IH]; intros r H; cbn [mapM] in H.
  - injection H as <-; constructor.
  - destruct (f a) as [b|] eqn:E; [|discriminate]; cbn [bind] in H.
    destruct (mapM f t) as [r'|] eqn:E'; [|discriminate]; cbn [bind] in H.
    injection H as <-; constructor; auto.
Qed.

(* ------------------------------------------------------------------ *)
(** * Disorientation of two plies *)
Lemma is_diso_spec a b delta :
  angle_ok a -> angle_ok b -> (is_diso a b delta = true <-> diso_ok delta a b).
Proof.
  unfold angle_ok, is_diso, diso_ok; intros Ha Hb.
  destruct (delta <? Z.abs (a - b)) eqn:E1; cbn [andb];
    [destruct (delta <? Z.abs (180 + a - b)) eqn:E2; cbn [andb];
     [destruct (delta <? Z.abs (a - b - 180)) eqn:E3|]|];
    split; intros H; try discriminate; try reflexivity.
  - exfalso. destruct H as [k Hk].
    apply Z.ltb_lt in E1, E2, E3.
    assert (k <= -2 \/ k = -1 \/ k = 0 \/ k = 1 \/ 2 <= k) as [K|[K|[K|[K|K]]]] by lia;
      subst; lia.
  - exists (-1); apply Z.ltb_ge in E3; lia.
  - exists 1; apply Z.ltb_ge in E2; lia.
  - exists 0; apply Z.ltb_ge in E1; lia.
Qed.

Lemma is_diso_comm a b delta : is_diso a b delta = is_diso b a delta.
Proof.
  unfold is_diso.
  replace (Z.abs (b - a)) with (Z.abs (a - b)) by lia.
  replace (Z.abs (180 + b - a)) with (Z.abs (a - b - 180)) by lia.
  replace (Z.abs (b - a - 180)) with (Z.abs (180 + a - b)) by lia.
  destruct (delta <? Z.abs (a - b)), (delta <? Z.abs (180 + a - b)),
    (delta <? Z.abs (a - b - 180)); reflexivity.
Qed.

Lemma is_diso_delta a b delta :
  is_diso a b delta = true <-> calc_delta_angle a b <= delta.
Proof.
  unfold is_diso, calc_delta_angle.
  destruct (Z.ltb_spec delta (Z.abs (a - b)));
  destruct (Z.ltb_spec delta (Z.abs (180 + a - b)));
  destruct (Z.ltb_spec delta (Z.abs (a - b - 180))); cbn [andb];
  split; intros; try discriminate; try reflexivity; lia.
Qed.

(** the distance is attained, is minimal and lies in [0, 90] *)
Lemma calc_delta_angle_spec a b :
  angle_ok a -> angle_ok b ->
  (exists k, calc_delta_angle a b = Z.abs (a - b + 180 * k)) /\
  (forall k, calc_delta_angle a b <= Z.abs (a - b + 180 * k)) /\
  0 <= calc_delta_angle a b <= 90.
Proof.
  unfold angle_ok, calc_delta_angle; intros Ha Hb; repeat split.
  - assert (Z.min (Z.abs (b - a)) (Z.min (Z.abs (180 + b - a)) (Z.abs (b - 180 - a)))
            = Z.abs (a - b + 180 * 0) \/
            Z.min (Z.abs (b - a)) (Z.min (Z.abs (180 + b - a)) (Z.abs (b - 180 - a)))
            = Z.abs (a - b + 180 * 1) \/
            Z.min (Z.abs (b - a)) (Z.min (Z.abs (180 + b - a)) (Z.abs (b - 180 - a)))
            = Z.abs (a - b + 180 * -1)) as [H|[H|H]] by lia; eauto.
  - intros k.
    assert (k <= -2 \/ k = -1 \/ k = 0 \/ k = 1 \/ 2 <= k) as [K|[K|[K|[K|K]]]] by lia;
      subst; lia.
  - lia.
  - lia.
Qed.

(** the signed variant: congruent to b - a, in (-90, 90], same magnitude *)
Lemma calc_delta_angle_2_spec a b :
  angle_ok a -> angle_ok b ->
  -90 < calc_delta_angle_2 a b <= 90 /\
  (exists k, calc_delta_angle_2 a b = b - a + 180 * k) /\
  Z.abs (calc_delta_angle_2 a b) = calc_delta_angle a b.
Proof.
  unfold angle_ok, calc_delta_angle_2, calc_delta_angle; intros Ha Hb.
  destruct (Z.ltb_spec (Z.abs (180 + b - a)) (Z.abs (b - a)));
  match goal with |- context [Z.abs (b - 180 - a) <? ?x] =>
    destruct (Z.ltb_spec (Z.abs (b - 180 - a)) x) end;
  match goal with |- context [?x =? -90] => destruct (Z.eqb_spec x (-90)) end;
  (split; [lia | split; [|lia]]);
  first [ exists 0; lia | exists 1; lia | exists (-1); lia | exists 2; lia | idtac ].
Qed.

(* ------------------------------------------------------------------ *)
(** * Disorientation of a stack *)
Lemma adjacent_nth l a b :
  adjacent l a b <->
  exists i, (S i < length l)%nat /\ nth i l 0 = a /\ nth (S i) l 0 = b.
Proof.
  split.
  - intros [l1 [l2 ->]]; exists (length l1).
    rewrite app_length; cbn [length]; split; [lia|].
    rewrite !app_nth2 by lia.
    replace (length l1 - length l1)%nat with 0%nat by lia.
    replace (S (length l1) - length l1)%nat with 1%nat by lia; auto.
  - intros [i [Hi [Ha Hb]]].
    exists (firstn i l), (skipn (S (S i)) l).
    rewrite <- (firstn_skipn i l) at 1; f_equal.
    subst a b; clear -Hi; revert l Hi; induction i as [|i IH]; intros l Hi.
    + destruct l as [|x [|y l]]; cbn in *; try lia; reflexivity.
    + destruct l as [|x l]; cbn [length] in Hi; [lia|].
      cbn [skipn nth]; apply IH; lia.
Qed.

Lemma forallb_adjacent (p : Z -> Z -> bool) l :
  forallb (fun i => p (nth i l 0) (nth (i + 1) l 0)) (seq 0 (length l - 1)) = true
  <-> forall a b, adjacent l a b -> p a b = true.
Proof.
  rewrite forallb_seq; split.
  - intros H a b Hab; apply adjacent_nth in Hab; destruct Hab as [i [Hi [<- <-]]].
    specialize (H i ltac:(lia)); rewrite Nat.add_1_r in H; exact H.
  - intros H i Hi; rewrite Nat.add_1_r; apply H, adjacent_nth; exists i; repeat split; lia.
Qed.

Lemma adjacent_in l a b : adjacent l a b -> In a l /\ In b l.
Proof.
  intros [l1 [l2 ->]]; rewrite !in_app_iff; cbn; auto.
Qed.

Lemma inner_trim l : inner_of l (trim l).
Proof.
  destruct l as [|a t]; [right; cbn; auto|].
  destruct t as [|b t]; [right; cbn; auto|].
  left; exists a.
  destruct (@exists_last _ (b :: t) ltac:(discriminate)) as [m [z E]].
  exists z; unfold trim; cbn [tl]; rewrite E, removelast_last; reflexivity.
Qed.

Lemma inner_unique l m : inner_of l m -> m = trim l.
Proof.
  intros [[a [b ->]]|[H ->]]; [symmetry; apply trim_spec|].
  destruct l as [|a [|b t]]; cbn in *; auto; lia.
Qed.

Lemma diso_all_spec l delta :
  Forall angle_ok l ->
  (forallb (fun i => is_diso (nth i l 0) (nth (i + 1) l 0) delta)
           (seq 0 (length l - 1)) = true <-> diso_stack delta l).
Proof.
  intros Hl; rewrite (forallb_adjacent (fun a b => is_diso a b delta)).
  unfold diso_stack; split; intros H a b Hab; specialize (H a b Hab);
    destruct (adjacent_in _ _ _ Hab) as [Ha Hb]; rewrite Forall_forall in Hl;
    apply is_diso_spec; auto.
Qed.

Lemma Forall_trim (P : Z -> Prop) l : Forall P l -> Forall P (trim l).
Proof.
  intros H; destruct (inner_trim l) as [[a [b E]]|[_ ->]]; [|constructor].
  rewrite E in H; inversion H; subst.
  apply Forall_app in H3; tauto.
Qed.

Lemma forallb_map_seq_shift (p : nat -> bool) n :
  forallb (fun i => p (S i)) (seq 0 n) = forallb p (seq 1 n).
Proof.
  rewrite <- seq_shift; generalize (seq 0 n) as s; intros s.
  induction s as [|x s IH]; cbn; [reflexivity | rewrite IH; reflexivity].
Qed.

Lemma diso_trim_eq l delta :
  forallb (fun i => is_diso (nth (i + 1) l 0) (nth (i + 2) l 0) delta)
          (seq 0 (length l - 3)) =
  forallb (fun i => is_diso (nth i (trim l) 0) (nth (i + 1) (trim l) 0) delta)
          (seq 0 (length (trim l) - 1)).
Proof.
  rewrite trim_length.
  replace (length l - 2 - 1)%nat with (length l - 3)%nat by lia.
  assert (H : forall (p q : nat -> bool) s, (forall i, In i s -> p i = q i) ->
               forallb p s = forallb q s).
  { intros p q s; induction s as [|x s IH]; intros Hs; cbn; auto.
    rewrite Hs by (left; auto); rewrite IH; auto. intros i Hi; apply Hs; right; auto. }
  apply H; intros i Hi; rewrite in_seq in Hi.
  rewrite !nth_trim by lia. do 2 f_equal; lia.
Qed.

Lemma is_diso_ss_off ss delta :
  Forall angle_ok ss ->
  exists b, is_diso_ss ss delta false None None = Ok b /\
            (b = true <-> diso_stack delta ss).
Proof.
  intros H; eexists; split; [reflexivity|]; apply diso_all_spec; exact H.
Qed.

Lemma is_diso_ss_inner ss delta rule :
  Forall angle_ok ss -> (rule = 2 \/ rule = 3)%nat ->
  exists b, is_diso_ss ss delta true (Some rule) None = Ok b /\
            (b = true <-> forall m, inner_of ss m -> diso_stack delta m).
Proof.
  intros H Hr; unfold is_diso_ss.
  assert ((Nat.eqb rule 2 || Nat.eqb rule 3)%bool = true) as -> by (destruct Hr; subst; reflexivity).
  rewrite diso_trim_eq; cbn [orb andb].
  match goal with |- context [negb ?X] => destruct X eqn:E end; cbn [negb];
    eexists; (split; [reflexivity|]); split; intros Hx; try discriminate; auto.
  - intros m Hm; rewrite (inner_unique _ _ Hm).
    apply diso_all_spec; [apply Forall_trim; exact H | exact E].
  - exfalso. specialize (Hx _ (inner_trim ss)).
    apply diso_all_spec in Hx; [congruence | apply Forall_trim; exact H].
Qed.

(** with rule 1 every stack is accepted *)
Lemma is_diso_ss_rule1 ss delta :
  is_diso_ss ss delta true (Some 1%nat) None = Ok true.
Proof. reflexivity. Qed.

Lemma dt_trim_cases c ss :
  dt_trim c ss = (if dam_tol c && (Nat.eqb (dam_tol_rule c) 2 || Nat.eqb (dam_tol_rule c) 3)
                  then trim ss else ss).
Proof. reflexivity. Qed.

(** positions of the disorientation violations of a stack *)
Definition diso_bad_at (delta : Z) (l : list Z) (i : nat) : Prop :=
  exists a b l1 l2, l = l1 ++ a :: b :: l2 /\ length l1 = i /\ ~ diso_ok delta a b.

Lemma diso_bad_at_nth delta l i :
  Forall angle_ok l ->
  (diso_bad_at delta l i <->
   (i < length l - 1)%nat /\ is_diso (nth i l 0) (nth (i + 1) l 0) delta = false).
Proof.
  intros Hl; rewrite Nat.add_1_r; split.
  - intros [a [b [l1 [l2 [E [Hi Hn]]]]]].
    assert (Ha : angle_ok a /\ angle_ok b).
    { rewrite Forall_forall in Hl; split; apply Hl; rewrite E, in_app_iff; cbn; auto. }
    assert (nth i l 0 = a /\ nth (S i) l 0 = b) as [-> ->].
    { subst l i; rewrite !app_nth2 by lia.
      replace (length l1 - length l1)%nat with 0%nat by lia.
      replace (S (length l1) - length l1)%nat with 1%nat by lia; auto. }
    split; [subst; rewrite app_length; cbn [length]; lia|].
    apply not_true_iff_false; rewrite is_diso_spec; tauto.
  - intros [Hi Hd].
    destruct (proj2 (adjacent_nth l (nth i l 0) (nth (S i) l 0))) as [l1' [l2' E']].
    { exists i; repeat split; lia. }
    exists (nth i l 0), (nth (S i) l 0), (firstn i l), (skipn (S (S i)) l).
    assert (Hs : skipn i l = nth i l 0 :: nth (S i) l 0 :: skipn (S (S i)) l).
    { clear -Hi. revert l Hi; induction i as [|i IH]; intros l Hi.
      + destruct l as [|x [|y l]]; cbn in *; try lia; reflexivity.
      + destruct l as [|x l]; cbn [length] in Hi; [lia|].
        cbn [skipn nth]; apply IH; lia. }
    split; [rewrite <- (firstn_skipn i l) at 1; f_equal; exact Hs|].
    split; [rewrite firstn_length; lia|].
    rewrite <- is_diso_spec, Hd; [discriminate| |];
      rewrite Forall_forall in Hl; apply Hl, nth_In; lia.
Qed.

(** a number counts the elements of a decidable set of positions *)
Definition counts (n : Z) (P : nat -> Prop) : Prop :=
  exists s : list nat, NoDup s /\ (forall i, In i s <-> P i) /\ n = Z.of_nat (length s).

Lemma counts_zero P : counts 0 P <-> forall i, ~ P i.
Proof.
  split.
  - intros [s [_ [Hs Hl]]] i Hi; apply Hs in Hi; destruct s; [destruct Hi | cbn in Hl; lia].
  - intros H; exists []; repeat split; [constructor| | ]; intros.
    + destruct H0.
    + exfalso; eapply H; eauto.
Qed.

Lemma counts_unique n m P : counts n P -> counts m P -> n = m.
Proof.
  intros [s [Hs [Hi ->]]] [t [Ht [Hj ->]]]; f_equal.
  apply Permutation_length, NoDup_Permutation; auto.
  intros x; rewrite Hi, Hj; reflexivity.
Qed.

Lemma counts_filter (p : nat -> bool) n :
  counts (nb_true (map p (seq 0 n))) (fun i => (i < n)%nat /\ p i = true).
Proof.
  exists (filter p (seq 0 n)); split; [apply NoDup_filter, seq_NoDup|]; split.
  - intros i; rewrite filter_In, in_seq; intuition lia.
  - unfold nb_true; f_equal; rewrite countb_map; reflexivity.
Qed.

Lemma calc_n_penalty_diso_ss_spec ss c :
  Forall angle_ok ss -> dt_trim c ss <> [] ->
  exists n, calc_n_penalty_diso_ss ss c = Ok n /\
            counts n (diso_bad_at (delta_angle c) (dt_trim c ss)).
Proof.
  intros Hs Hne; unfold calc_n_penalty_diso_ss, calc_penalty_diso_mp_0.
  assert (Hl : Forall angle_ok (dt_trim c ss)).
  { rewrite dt_trim_cases.
    match goal with |- context [if ?b then _ else _] => destruct b end; auto.
    apply Forall_trim; exact Hs. }
  set (l := dt_trim c ss) in *.
  cbn [mapM]; unfold viola_diso_1.
  destruct l as [|x l'] eqn:El; [congruence|]; rewrite <- El in *; cbn [bind].
  eexists; split; [reflexivity|].
  cbn [map]; rewrite sumZ_cons; cbn [sumZ fold_right]; rewrite Z.add_0_r.
  destruct (counts_filter (fun i => negb (is_diso (nth i l 0) (nth (i + 1) l 0) (delta_angle c)))
              (length l - 1)) as [s [Hn [Hi Hc]]].
  exists s; repeat split; auto; intros H.
  - apply Hi in H; apply diso_bad_at_nth; auto.
    destruct H as [H1 H2]; split; auto; apply negb_true_iff; exact H2.
  - apply Hi; apply diso_bad_at_nth in H; auto.
    destruct H as [H1 H2]; split; auto; apply negb_true_iff; exact H2.
Qed.

Lemma diso_bad_stack delta l :
  Forall angle_ok l -> ((forall i, ~ diso_bad_at delta l i) <-> diso_stack delta l).
Proof.
  intros Hl; split.
  - intros H; apply diso_all_spec; auto; apply forallb_seq; intros i Hi.
    destruct (is_diso (nth i l 0) (nth (i + 1) l 0) delta) eqn:E; auto.
    exfalso; apply (H i), diso_bad_at_nth; auto.
  - intros H i [a [b [l1 [l2 [E [_ Hn]]]]]]; apply Hn, H; exists l1, l2; exact E.
Qed.

(* ------------------------------------------------------------------ *)
(** * Contiguity *)
Lemma contig_window_spec n g :
  (2 <= n <= 6)%nat ->
  (contig_window n g = true <-> forall k, (k <= n)%nat -> g k = g 0%nat).
Proof.
  intros Hn.
  assert (n = 2 \/ n = 3 \/ n = 4 \/ n = 5 \/ n = 6)%nat as [->|[->|[->|[->| ->]]]] by lia;
    cbn [contig_window]; rewrite ?andb_true_iff, ?Z.eqb_eq;
    (split;
     [ intros H k Hk; do 7 (destruct k as [|k]; [first [lia | intuition congruence]|]); lia
     | intros H;
       pose proof (H 1%nat ltac:(lia)); pose proof (H 2%nat ltac:(lia));
       try pose proof (H 3%nat ltac:(lia)); try pose proof (H 4%nat ltac:(lia));
       try pose proof (H 5%nat ltac:(lia)); try pose proof (H 6%nat ltac:(lia));
       intuition congruence ]).
Qed.

Lemma contig_window2_spec n g :
  contig_window2 n g = true <-> forall k, (k <= n)%nat -> g k = g 0%nat.
Proof.
  unfold contig_window2; rewrite forallb_forall; split.
  - intros H [|k] Hk; auto. specialize (H (S k)); rewrite in_seq in H.
    specialize (H ltac:(lia)); apply Z.eqb_eq in H; auto.
  - intros H k Hk; rewrite in_seq in Hk; apply Z.eqb_eq; symmetry; apply H; lia.
Qed.

Lemma block_at_nth n i l :
  block_at (S n) i l <->
  (i + n < length l)%nat /\ forall k, (k <= n)%nat -> nth (i + k) l 0 = nth i l 0.
Proof.
  split.
  - intros [a [l1 [l2 [E Hi]]]]; subst l i.
    rewrite !app_length, repeat_length; split; [lia|].
    assert (H : forall k, (k <= n)%nat ->
              nth (length l1 + k) (l1 ++ repeat a (S n) ++ l2) 0 = a).
    { intros k Hk; rewrite app_nth2 by lia.
      replace (length l1 + k - length l1)%nat with k by lia.
      rewrite app_nth1 by (rewrite repeat_length; lia).
      eapply repeat_spec, nth_In; rewrite repeat_length; lia. }
    intros k Hk; rewrite H by exact Hk.
    rewrite <- (Nat.add_0_r (length l1)) at 1; rewrite H by lia; reflexivity.
  - intros [Hl H].
    exists (nth i l 0), (firstn i l), (skipn (i + S n) l); split;
      [|rewrite firstn_length; lia].
    rewrite <- (firstn_skipn i l) at 1; f_equal.
    rewrite <- (firstn_skipn (S n) (skipn i l)) at 1.
    rewrite skipn_skipn; f_equal; [|f_equal; lia].
    apply list_ext with (d := 0).
    + rewrite firstn_length, skipn_length, repeat_length; lia.
    + rewrite firstn_length, skipn_length; intros k Hk.
      rewrite nth_firstn by lia; rewrite nth_skipn, H by lia.
      symmetry; eapply repeat_spec, nth_In; rewrite repeat_length; lia.
Qed.

Lemma has_block_at n l : has_block n l <-> exists i, block_at n i l.
Proof.
  unfold has_block, block_at; split.
  - intros [a [l1 [l2 E]]]; exists (length l1), a, l1, l2; auto.
  - intros [i [a [l1 [l2 [E _]]]]]; eauto.
Qed.

Lemma has_block_nth n l :
  has_block (S n) l <->
  exists i, (i + n < length l)%nat /\ forall k, (k <= n)%nat -> nth (i + k) l 0 = nth i l 0.
Proof.
  rewrite has_block_at; split; intros [i H]; exists i; apply block_at_nth; exact H.
Qed.

Lemma contig_scan_spec (w : nat -> (nat -> Z) -> bool) n l :
  (forall g, w n g = true <-> forall k, (k <= n)%nat -> g k = g 0%nat) ->
  (forallb (fun i => negb (w n (fun k => nth (i + k) l 0))) (seq 0 (length l - n)) = true
   <-> contig_stack n l).
Proof.
  intros Hw; rewrite forallb_seq; unfold contig_stack; rewrite has_block_nth; split.
  - intros H [i [Hi Hk]]; specialize (H i ltac:(lia)).
    apply negb_true_iff in H; apply not_true_iff_false in H; apply H, Hw.
    intros k Hkn; rewrite Hk by exact Hkn; f_equal; lia.
  - intros H i Hi; apply negb_true_iff, not_true_iff_false; intros Hb; apply H.
    exists i; split; [lia|]; intros k Hk.
    apply (proj1 (Hw _)) with (k := k) in Hb; auto.
    rewrite Hb; f_equal; lia.
Qed.

Lemma contig_short n l : (length l <= n)%nat -> contig_stack n l.
Proof.
  intros H Hb; apply has_block_nth in Hb; destruct Hb as [i [Hi _]]; lia.
Qed.

Lemma is_contig_spec n l :
  (2 <= n <= 6)%nat ->
  exists b, is_contig l n = Ok b /\ (b = true <-> contig_stack n l).
Proof.
  intros Hn; unfold is_contig.
  destruct (Nat.ltb_spec n (length l)).
  - assert ((Nat.leb 2 n && Nat.leb n 6)%bool = true) as ->
      by (apply andb_true_iff; split; apply Nat.leb_le; lia).
    eexists; split; [reflexivity|].
    apply (contig_scan_spec contig_window); intros g; apply contig_window_spec; exact Hn.
  - eexists; split; [reflexivity|]; split; auto; intros _; apply contig_short; lia.
Qed.

Lemma is_contig_raises n l :
  (6 < n < length l)%nat \/ (n = 0 /\ 0 < length l)%nat ->
  is_contig l n = Err (Raised NotCoded).
Proof.
  intros H; unfold is_contig.
  destruct (Nat.ltb_spec n (length l)); [|lia].
  destruct H as [H|H].
  - assert (Nat.leb n 6 = false) as -> by (apply Nat.leb_gt; lia).
    rewrite andb_false_r.
    assert (Nat.eqb n 1 = false) as -> by (apply Nat.eqb_neq; lia); reflexivity.
  - assert (n = 0)%nat as -> by lia; reflexivity.
Qed.

Lemma internal_contig2_spec c l :
  contig c = true -> (2 <= n_contig c <= 6)%nat ->
  exists b, internal_contig2 l c = Ok b /\ (b = true <-> contig_stack (n_contig c) l).
Proof.
  intros Hc Hn; unfold internal_contig2; rewrite Hc; cbn [negb].
  destruct (Nat.ltb_spec (n_contig c) (length l)).
  - assert ((Nat.leb 2 (n_contig c) && Nat.leb (n_contig c) 6)%bool = true) as ->
      by (apply andb_true_iff; split; apply Nat.leb_le; lia).
    eexists; split; [reflexivity|].
    apply (contig_scan_spec contig_window2); intros g; apply contig_window2_spec.
  - eexists; split; [reflexivity|]; split; auto; intros _; apply contig_short; lia.
Qed.

(** one window *)
Lemma window_spec n l i :
  (2 <= n <= 6)%nat ->
  exists b, is_contig (slice i (i + n + 1) l) n = Ok b /\
            (b = true <-> ~ block_at (S n) i l).
Proof.
  intros Hn; destruct (is_contig_spec n (slice i (i + n + 1) l) Hn) as [b [Hb Hs]].
  exists b; split; auto; rewrite Hs; unfold contig_stack.
  assert (E : has_block (S n) (slice i (i + n + 1) l) <-> block_at (S n) i l); [|tauto].
  rewrite has_block_nth, block_at_nth.
  unfold slice; rewrite firstn_length, skipn_length.
  split.
  - intros [j [Hj Hk]]; assert (j = 0)%nat as -> by lia.
    split; [lia|]; intros k Hkn; specialize (Hk k Hkn).
    rewrite !nth_firstn, !nth_skipn in Hk by lia; cbn [Nat.add] in Hk.
    rewrite Hk; f_equal; lia.
  - intros [Hj Hk]; exists 0%nat; split; [lia|]; intros k Hkn.
    rewrite !nth_firstn, !nth_skipn by lia; cbn [Nat.add]; rewrite Hk by lia.
    f_equal; lia.
Qed.

Definition window_bad (n : nat) (l : list Z) (i : nat) : bool :=
  match is_contig (slice i (i + n + 1) l) n with Ok b => negb b | Err _ => false end.

Lemma window_bad_spec n l i :
  (2 <= n <= 6)%nat ->
  is_contig (slice i (i + n + 1) l) n = Ok (negb (window_bad n l i)) /\
  (window_bad n l i = true <-> block_at (S n) i l).
Proof.
  intros Hn; destruct (window_spec n l i Hn) as [b [Hb Hs]].
  unfold window_bad; rewrite Hb; rewrite negb_involutive; split; auto.
  assert (D : block_at (S n) i l \/ ~ block_at (S n) i l).
  { rewrite block_at_nth.
    destruct (Nat.ltb_spec (i + n) (length l)); [|right; lia].
    assert (X : (forall k, (k <= n)%nat -> nth (i + k) l 0 = nth i l 0) \/
            ~ (forall k, (k <= n)%nat -> nth (i + k) l 0 = nth i l 0)).
    { destruct (forallb (fun k => nth (i + k) l 0 =? nth i l 0) (seq 0 (S n))) eqn:E.
      - left; intros k Hk; rewrite forallb_seq in E; specialize (E k ltac:(lia)).
        apply Z.eqb_eq; exact E.
      - right; intros X; apply not_true_iff_false in E; apply E, forallb_seq.
        intros k Hk; apply Z.eqb_eq, X; lia. }
    tauto. }
  destruct b; cbn [negb]; split; intros; try discriminate; try tauto.
  - destruct D; auto. exfalso; apply Hs in H0; discriminate.
Qed.

Lemma calc_contig_vector_spec n l :
  (2 <= n <= 6)%nat ->
  exists v, calc_contig_vector l n = Ok v /\
    length v = (length l - n)%nat /\
    forall i, (i < length l - n)%nat ->
      (nth i v 0 = 1 /\ block_at (S n) i l) \/ (nth i v 0 = 0 /\ ~ block_at (S n) i l).
Proof.
  intros Hn; unfold calc_contig_vector.
  destruct (Nat.ltb_spec 0 (length l - n)).
  - rewrite (mapM_ok _ (fun ind => if window_bad n l ind then 1 else 0)).
    2:{ intros i _; destruct (window_bad_spec n l i Hn) as [-> _]; cbn [bind].
        destruct (window_bad n l i); reflexivity. }
    eexists; split; [reflexivity|]; split; [now rewrite map_length, seq_length|].
    intros i Hi.
    rewrite nth_indep with (d' := (fun ind => if window_bad n l ind then 1 else 0) 0%nat)
      by (rewrite map_length, seq_length; exact Hi).
    rewrite (map_nth (fun ind => if window_bad n l ind then 1 else 0)).
    rewrite seq_nth by exact Hi; cbn [Nat.add].
    destruct (window_bad_spec n l i Hn) as [_ Hw].
    destruct (window_bad n l i); [left; split; auto; apply Hw; auto|].
    right; split; auto; intros Hb; apply Hw in Hb; discriminate.
  - exists []; split; auto; split; [cbn; lia|]; intros; lia.
Qed.

Lemma contig_pen1 n l :
  (2 <= n <= 6)%nat ->
  exists v, viol_contig_1 l n = Ok v /\ counts (nb_true v) (fun i => block_at (S n) i l).
Proof.
  intros Hn; unfold viol_contig_1.
  rewrite (mapM_ok _ (fun i => window_bad n l i)).
  2:{ intros i _; destruct (window_bad_spec n l i Hn) as [-> _]; cbn [bind].
      rewrite negb_involutive; reflexivity. }
  eexists; split; [reflexivity|].
  destruct (counts_filter (fun i => window_bad n l i) (length l)) as [s [Hd [Hi Hc]]].
  exists s; repeat split; auto; intros H.
  - apply Hi in H; apply (window_bad_spec n l i Hn); tauto.
  - apply Hi; split; [|apply (window_bad_spec n l i Hn); exact H].
    apply block_at_nth in H; lia.
Qed.

Lemma calc_penalty_contig_ss_spec ss c :
  (2 <= n_contig c <= 6)%nat ->
  exists n, calc_penalty_contig_ss ss c = Ok n /\
            counts n (fun i => block_at (S (n_contig c)) i (dt_trim c ss)).
Proof.
  intros Hn; unfold calc_penalty_contig_ss, calc_matrix_viol_contig; cbn [mapM].
  destruct (contig_pen1 (n_contig c) (dt_trim c ss) Hn) as [v [-> Hc]]; cbn [bind map].
  eexists; split; [reflexivity|].
  rewrite sumZ_cons; cbn [sumZ fold_right]; rewrite Z.add_0_r; exact Hc.
Qed.

Lemma calc_penalty_contig_mp_spec sss c :
  (2 <= n_contig c <= 6)%nat ->
  exists r, calc_penalty_contig_mp sss c = Ok r /\
    Forall2 (fun ss n => counts n (fun i => block_at (S (n_contig c)) i (dt_trim c ss)))
            sss r.
Proof.
  intros Hn; unfold calc_penalty_contig_mp, calc_matrix_viol_contig.
  assert (exists v, mapM (fun s => viol_contig_1 s (n_contig c)) (map (dt_trim c) sss) = Ok v /\
    Forall2 (fun ss w => counts (nb_true w)
       (fun i => block_at (S (n_contig c)) i (dt_trim c ss))) sss v) as [v [-> Hv]].
  { induction sss as [|ss t IH]; cbn [map mapM]; [exists []; split; auto|].
    destruct (contig_pen1 (n_contig c) (dt_trim c ss) Hn) as [v [-> Hc]]; cbn [bind].
    destruct IH as [w [-> Hw]]; cbn [bind].
    eexists; split; [reflexivity|]; constructor; auto. }
  cbn [bind]; eexists; split; [reflexivity|].
  clear -Hv; induction Hv; cbn [map]; constructor; auto.
Qed.

Lemma contig_counts_zero n l :
  counts 0 (fun i => block_at (S n) i l) <-> contig_stack n l.
Proof.
  rewrite counts_zero; unfold contig_stack; rewrite has_block_at; split.
  - intros H [i Hi]; eapply H; eauto.
  - intros H i Hi; apply H; eauto.
Qed.

(* ------------------------------------------------------------------ *)
(** * Balance *)
Lemma is_balanced_spec l : is_balanced l = true <-> balanced l.
Proof.
  unfold is_balanced, balanced; rewrite forallb_forall; split.
  - intros H a Ha Ha'.
    assert (H' : forall b, 0 < b -> b <> 90 ->
              count_occ Z.eq_dec l b = count_occ Z.eq_dec l (- b)).
    { intros b Hb Hb'.
      destruct (in_dec Z.eq_dec b (map Z.abs l)) as [Hin|Hin].
      - specialize (H b); rewrite filter_In, uniq_in in H.
        assert (Hb1 : (negb (b =? 0) && negb (b =? 90))%bool = true).
        { apply andb_true_iff; split; apply negb_true_iff, Z.eqb_neq; lia. }
        specialize (H (conj Hin Hb1)); apply Z.eqb_eq in H; unfold count in H; lia.
      - assert (~ In b l) as N1 by (intros X; apply Hin, in_map_iff; exists b; split; auto; lia).
        assert (~ In (- b) l) as N2
          by (intros X; apply Hin, in_map_iff; exists (- b); split; auto; lia).
        apply (count_occ_not_In Z.eq_dec) in N1, N2; lia. }
    destruct (Z.lt_trichotomy a 0) as [L|[L|L]]; [|lia|apply H'; lia].
    rewrite <- (Z.opp_involutive a) at 1; symmetry; apply H'; lia.
  - intros H a Ha; rewrite filter_In, uniq_in, in_map_iff, andb_true_iff in Ha.
    destruct Ha as [[x [Hx _]] [H1 H2]].
    apply negb_true_iff in H1, H2; apply Z.eqb_neq in H1, H2.
    apply Z.eqb_eq; unfold count; rewrite H; auto; lia.
Qed.

(* ------------------------------------------------------------------ *)
(** * Damage tolerance *)
Lemma is45_spec a : is45 a = true <-> pm45 a.
Proof. unfold is45, pm45; rewrite orb_true_iff, !Z.eqb_eq; tauto. Qed.

Lemma py_get_last {A} (l : list A) x : py_get (l ++ [x]) (-1) = Some x.
Proof.
  unfold py_get; cbn -[zlen]; rewrite zlen_app; change (zlen [x]) with 1.
  pose proof (zlen_nonneg l).
  assert ((- (zlen l + 1) <=? -1) = true) as -> by (apply Z.leb_le; lia).
  replace (zlen l + 1 + -1) with (zlen l) by lia; unfold zlen; rewrite Nat2Z.id.
  rewrite nth_error_app2, Nat.sub_diag by lia; reflexivity.
Qed.

Lemma py_get_last2 {A} (l : list A) y x : py_get (l ++ [y; x]) (-2) = Some y.
Proof.
  unfold py_get; cbn -[zlen]; rewrite zlen_app; change (zlen [y; x]) with 2.
  pose proof (zlen_nonneg l).
  assert ((- (zlen l + 2) <=? -2) = true) as -> by (apply Z.leb_le; lia).
  replace (zlen l + 2 + -2) with (zlen l) by lia; unfold zlen; rewrite Nat2Z.id.
  rewrite nth_error_app2, Nat.sub_diag by lia; reflexivity.
Qed.

Lemma py_get_0 {A} (l : list A) x : py_get (x :: l) 0 = Some x.
Proof.
  unfold py_get; cbn -[zlen]. assert ((0 <? zlen (x :: l)) = true) as ->; [|reflexivity].
  unfold zlen; cbn [length]; apply Z.ltb_lt; lia.
Qed.

Lemma py_get_1 {A} (l : list A) x y : py_get (x :: y :: l) 1 = Some y.
Proof.
  unfold py_get; cbn -[zlen]. assert ((1 <? zlen (x :: y :: l)) = true) as ->; [|reflexivity].
  unfold zlen; cbn [length]; apply Z.ltb_lt; lia.
Qed.

Lemma last_two {A} (l : list A) :
  (2 <= length l)%nat -> exists m y z, l = m ++ [y; z].
Proof.
  intros H; destruct (@exists_last _ l) as [m [z ->]].
  { intros ->; cbn in H; lia. }
  rewrite app_length in H; cbn in H.
  destruct (@exists_last _ m) as [m' [y ->]].
  { intros ->; cbn in H; lia. }
  exists m', y, z; rewrite <- app_assoc; reflexivity.
Qed.

Lemma is_dam_tol_off ss c : dam_tol c = false -> is_dam_tol ss c = Ok true.
Proof. intros H; unfold is_dam_tol; rewrite H; reflexivity. Qed.

Lemma is_dam_tol_1 ss c :
  dam_tol c = true -> dam_tol_rule c = 1%nat -> ss <> [] ->
  exists b, is_dam_tol ss c = Ok b /\ (b = true <-> damtol1 ss).
Proof.
  intros Hd Hr Hne; unfold is_dam_tol; rewrite Hd, Hr; cbn [negb].
  destruct ss as [|a t]; [congruence|].
  destruct (@exists_last _ (a :: t)) as [m [z E]]; [discriminate|].
  rewrite py_get_0; rewrite E, py_get_last, <- E; cbn [bind].
  destruct (is45 a) eqn:Ea; cbn [negb]; [destruct (is45 z) eqn:Ez; cbn [negb]|];
    eexists; (split; [reflexivity|]); split; intros H; try discriminate; try reflexivity.
  - split.
    + exists a, t; split; auto; apply is45_spec; auto.
    + exists m, z; split; auto; apply is45_spec; auto.
  - destruct H as [_ [m' [z' [E' Hz]]]]; rewrite E in E'.
    apply app_inj_tail in E'; destruct E' as [_ ->].
    apply is45_spec in Hz; congruence.
  - destruct H as [[a' [m' [E' Ha]]] _]; injection E' as <- _.
    apply is45_spec in Ha; congruence.
Qed.

Lemma is_dam_tol_2 ss c :
  dam_tol c = true -> dam_tol_rule c = 2%nat -> (2 <= length ss)%nat ->
  exists b, is_dam_tol ss c = Ok b /\ (b = true <-> damtol2 ss).
Proof.
  intros Hd Hr Hne; unfold is_dam_tol; rewrite Hd, Hr; cbn [negb].
  destruct (last_two ss Hne) as [m [y [z E]]].
  destruct ss as [|a [|b t]]; cbn in Hne; try lia.
  rewrite py_get_0, py_get_1.
  assert (py_get (a :: b :: t) (-1) = Some z) as ->.
  { rewrite E. replace (m ++ [y; z]) with ((m ++ [y]) ++ [z]) by (rewrite <- app_assoc; auto).
    apply py_get_last. }
  assert (py_get (a :: b :: t) (-2) = Some y) as -> by (rewrite E; apply py_get_last2).
  cbn [bind].
  assert (D : damtol2 (a :: b :: t) <->
              (is45 a = true /\ a = - b) /\ (is45 z = true /\ z = - y)).
  { unfold damtol2; rewrite !is45_spec; split.
    - intros [[a' [m' [E1 H1]]] [m2 [z' [E2 H2]]]]; injection E1 as <- -> _.
      rewrite E in E2.
      replace (m ++ [y; z]) with ((m ++ [y]) ++ [z]) in E2 by (rewrite <- app_assoc; auto).
      replace (m2 ++ [- z'; z']) with ((m2 ++ [- z']) ++ [z']) in E2
        by (rewrite <- app_assoc; auto).
      apply app_inj_tail in E2; destruct E2 as [E2 ->].
      apply app_inj_tail in E2; destruct E2 as [_ ->].
      repeat split; auto; lia.
    - intros [[H1 H2] [H3 H4]]; split.
      + exists a, t; split; auto; repeat f_equal; lia.
      + exists m, z; split; auto; rewrite E; repeat f_equal; lia. }
  setoid_rewrite D.
  assert (Hb : a = - b -> is45 a = true -> is45 b = true)
    by (rewrite !is45_spec; unfold pm45; lia).
  assert (Hy : z = - y -> is45 z = true -> is45 y = true)
    by (rewrite !is45_spec; unfold pm45; lia).
  destruct (is45 a) eqn:Ea; cbn [negb];
  [destruct (is45 b) eqn:Eb; cbn [negb];
   [destruct (is45 z) eqn:Ez; cbn [negb];
    [destruct (is45 y) eqn:Ey; cbn [negb];
     [destruct (Z.eqb_spec a (- b)); cbn [negb];
      [destruct (Z.eqb_spec z (- y)); cbn [negb]|]|]|]|]|];
  eexists; (split; [reflexivity|]); split; intros H; try discriminate; try reflexivity;
  intuition congruence.
Qed.

Lemma is_dam_tol_3 ss c :
  dam_tol c = true -> dam_tol_rule c = 3%nat -> (2 <= length ss)%nat ->
  exists b, is_dam_tol ss c = Ok b /\ (b = true <-> damtol3 ss).
Proof.
  intros Hd Hr Hne; unfold is_dam_tol; rewrite Hd, Hr; cbn [negb].
  destruct (last_two ss Hne) as [m [y [z E]]].
  destruct ss as [|a [|b t]]; cbn in Hne; try lia.
  rewrite py_get_0, py_get_1.
  assert (py_get (a :: b :: t) (-1) = Some z) as ->.
  { rewrite E. replace (m ++ [y; z]) with ((m ++ [y]) ++ [z]) by (rewrite <- app_assoc; auto).
    apply py_get_last. }
  assert (py_get (a :: b :: t) (-2) = Some y) as -> by (rewrite E; apply py_get_last2).
  cbn [bind].
  assert (D : damtol3 (a :: b :: t) <->
              (is45 a = true /\ is45 b = true) /\ (is45 y = true /\ is45 z = true)).
  { unfold damtol3; rewrite !is45_spec; split.
    - intros [[a' [b' [m' [E1 [H1 H1']]]]] [m2 [y' [z' [E2 [H2 H2']]]]]];
        injection E1 as <- <- _.
      rewrite E in E2.
      replace (m ++ [y; z]) with ((m ++ [y]) ++ [z]) in E2 by (rewrite <- app_assoc; auto).
      replace (m2 ++ [y'; z']) with ((m2 ++ [y']) ++ [z']) in E2
        by (rewrite <- app_assoc; auto).
      apply app_inj_tail in E2; destruct E2 as [E2 ->].
      apply app_inj_tail in E2; destruct E2 as [_ ->]; auto.
    - intros [[H1 H2] [H3 H4]]; split.
      + exists a, b, t; auto.
      + exists m, y, z; rewrite E; auto. }
  setoid_rewrite D.
  destruct (is45 a) eqn:Ea; cbn [negb];
  [destruct (is45 b) eqn:Eb; cbn [negb];
   [destruct (is45 z) eqn:Ez; cbn [negb];
    [destruct (is45 y) eqn:Ey; cbn [negb]|]|]|];
  eexists; (split; [reflexivity|]); split; intros H; try discriminate; try reflexivity;
  intuition congruence.
Qed.

(* ------------------------------------------------------------------ *)
(** * 10% rule *)
Lemma Qltb_lt a b : Qltb a b = true <-> (a < b)%Q.
Proof.
  unfold Qltb; rewrite negb_true_iff; split; intros H.
  - apply Qnot_le_lt; intros X; apply Qle_bool_iff in X; congruence.
  - apply not_true_iff_false; intros X; apply Qle_bool_iff in X.
    eapply Qlt_not_le; eauto.
Qed.

Lemma Qltb_ge a b : Qltb a b = false <-> (b <= a)%Q.
Proof.
  rewrite <- not_true_iff_false, Qltb_lt; split; intros H.
  - apply Qnot_lt_le; exact H.
  - apply Qle_not_lt; exact H.
Qed.

Lemma share_share a l : share (count a l) (length l) = share_of a l.
Proof. reflexivity. Qed.

Lemma ten_compare_spec c n0 n45 n90 n135 tot eq45 eq090 :
  tot <> 0%nat ->
  exists b, ten_compare c n0 n45 n90 n135 tot eq45 eq090 = Ok b /\
   (b = true <->
     ((eq090 = false -> percent_0 c <= share n0 tot + eps15 /\
                         percent_90 c <= share n90 tot + eps15) /\
      (eq090 = true -> percent_0 c + percent_90 c <= share n0 tot + share n90 tot + eps15) /\
      (eq45 = false -> percent_45 c <= share n45 tot + eps15 /\
                       percent_135 c <= share n135 tot + eps15) /\
      (eq45 = true -> percent_45 c + percent_135 c <= share n45 tot + share n135 tot + eps15) /\
      percent_45_135 c <= share n45 tot + share n135 tot + eps15)%Q).
Proof.
  intros Ht; unfold ten_compare.
  destruct (Nat.eqb_spec tot 0); [contradiction|].
  eexists; split; [reflexivity|].
  set (p0 := share n0 tot); set (p45 := share n45 tot);
  set (p90 := share n90 tot); set (p135 := share n135 tot).
  destruct eq090, eq45; cbn [negb andb];
  repeat match goal with
  | |- context [if (?x || ?y)%bool then _ else _] =>
      let E := fresh "E" in destruct (x || y)%bool eqn:E;
      [apply orb_true_iff in E; rewrite !Qltb_lt in E
      |apply orb_false_iff in E; rewrite !Qltb_ge in E; destruct E]
  | |- context [if Qltb ?x ?y then _ else _] =>
      let E := fresh "E" in destruct (Qltb x y) eqn:E;
      [apply Qltb_lt in E | apply Qltb_ge in E]
  end;
  split; intros HX; try discriminate; try reflexivity;
  repeat split; intros; try discriminate; try assumption;
  try (destruct HX as (A1 & A2 & A3 & A4 & A5);
       try specialize (A1 eq_refl); try specialize (A2 eq_refl);
       try specialize (A3 eq_refl); try specialize (A4 eq_refl);
       exfalso; intuition lra).
Qed.

Lemma pos_nonneg x : (0 <= pos x)%Q.
Proof. unfold pos, Qmaxb; destruct (Qltb 0 x) eqn:E; [apply Qltb_lt in E; lra | lra]. Qed.

Lemma pos_zero x : (pos x == 0)%Q <-> (x <= 0)%Q.
Proof.
  unfold pos, Qmaxb; destruct (Qltb 0 x) eqn:E;
    [apply Qltb_lt in E | apply Qltb_ge in E]; split; intros; lra.
Qed.

Lemma pen10_nonneg c p0 p45 p90 p135 : (0 <= pen10 c p0 p45 p90 p135)%Q.
Proof.
  unfold pen10.
  pose proof (pos_nonneg (percent_0 c - p0)); pose proof (pos_nonneg (percent_45 c - p45));
  pose proof (pos_nonneg (percent_90 c - p90)); pose proof (pos_nonneg (percent_135 c - p135));
  pose proof (pos_nonneg (percent_45_135 c - p45 - p135)); lra.
Qed.

Lemma pen10_zero c p0 p45 p90 p135 :
  (pen10 c p0 p45 p90 p135 == 0)%Q <->
  (percent_0 c <= p0 /\ percent_45 c <= p45 /\ percent_90 c <= p90 /\
   percent_135 c <= p135 /\ percent_45_135 c <= p45 + p135)%Q.
Proof.
  unfold pen10.
  pose proof (pos_nonneg (percent_0 c - p0)); pose proof (pos_nonneg (percent_45 c - p45));
  pose proof (pos_nonneg (percent_90 c - p90)); pose proof (pos_nonneg (percent_135 c - p135));
  pose proof (pos_nonneg (percent_45_135 c - p45 - p135)).
  split.
  - intros E.
    assert (pos (percent_0 c - p0) == 0)%Q as E1 by lra; apply pos_zero in E1.
    assert (pos (percent_45 c - p45) == 0)%Q as E2 by lra; apply pos_zero in E2.
    assert (pos (percent_90 c - p90) == 0)%Q as E3 by lra; apply pos_zero in E3.
    assert (pos (percent_135 c - p135) == 0)%Q as E4 by lra; apply pos_zero in E4.
    assert (pos (percent_45_135 c - p45 - p135) == 0)%Q as E5 by lra; apply pos_zero in E5.
    repeat split; lra.
  - intros (A1 & A2 & A3 & A4 & A5).
    assert (pos (percent_0 c - p0) == 0)%Q as E1 by (apply pos_zero; lra).
    assert (pos (percent_45 c - p45) == 0)%Q as E2 by (apply pos_zero; lra).
    assert (pos (percent_90 c - p90) == 0)%Q as E3 by (apply pos_zero; lra).
    assert (pos (percent_135 c - p135) == 0)%Q as E4 by (apply pos_zero; lra).
    assert (pos (percent_45_135 c - p45 - p135) == 0)%Q as E5 by (apply pos_zero; lra).
    rewrite E1, E2, E3, E4, E5; lra.
Qed.
