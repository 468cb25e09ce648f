(* Properties_counters2.v - C83: the contiguity counters updated ply by ply. *)
From Verif Require Import Base Constraints Guidelines SpecGuidelines GuidelinesProofs
  Divers DiversProofs Counters.
From Verif Require Import Properties_filters Properties_counters.
Local Open Scope Z_scope.

(* ------------------------------------------------------------------ *)
(** * Specification *)

(** the counter of every panel is the number of blocks of n + 1 plies at one angle in
    its stacking sequence *)
Definition exact_contig (n : nat) (viola : list Z) (stacks : list (list Z)) : Prop :=
  Forall2 (fun v s => counts v (fun i => block_at (S n) i s)) viola stacks.

(** the counter of every panel is the number of such blocks in its two halves *)
Definition exact_contig_halves (n : nat) (viola : list Z) (bot top : list (list Z)) : Prop :=
  Forall2 (fun v (h : list Z * list Z) =>
             exists m k, counts m (fun i => block_at (S n) i (fst h)) /\
                         counts k (fun i => block_at (S n) i (snd h)) /\ v = m + k)
          viola (List.combine bot top).

(** the new ply in the middle of symmetric laminates, [k] times *)
Definition closed (a : Z) (k level : nat) (pdl halves : list (list Z)) : list (list Z) :=
  map (fun rh : list Z * list Z => let (row, h) := rh in
         if 0 <=? nth level row 0 then h ++ repeat a k ++ rev h else h ++ rev h)
      (List.combine pdl halves).

(* ------------------------------------------------------------------ *)
(** * Counting blocks *)

Definition wv (n : nat) (l : list Z) : Z := nb_true (map (window_bad n l) (seq 0 (length l))).

Definition w0 (n : nat) (l : list Z) : Z := if window_bad n l 0 then 1 else 0.

Lemma wv_cons n a t : wv n (a :: t) = w0 n (a :: t) + wv n t.
Proof.
  unfold wv, w0. cbn [length seq map]. rewrite <- seq_shift, map_map.
  rewrite (map_ext (fun x => window_bad n (a :: t) (S x)) (window_bad n t)) by (intros; reflexivity).
  unfold nb_true, countb. cbn [filter]. destruct (window_bad n (a :: t) 0); cbn [length]; lia.
Qed.

Lemma wv_counts n l : (2 <= n <= 6)%nat -> counts (wv n l) (fun i => block_at (S n) i l).
Proof.
  intros Hn. destruct (counts_filter (fun i => window_bad n l i) (length l)) as [s [Hd [Hi Hc]]].
  exists s; repeat split; auto; intros H.
  - apply Hi in H; apply (window_bad_spec n l i Hn); tauto.
  - apply Hi; split; [|apply (window_bad_spec n l i Hn); exact H]. apply block_at_nth in H; lia.
Qed.

Lemma w0_firstn n l m : firstn (S n) l = firstn (S n) m -> w0 n l = w0 n m.
Proof.
  intros H. unfold w0, window_bad, slice. cbn [Nat.add skipn]. rewrite !Nat.sub_0_r. replace (n + 1)%nat with (S n) by lia.
  rewrite H; reflexivity.
Qed.

Lemma w0_short n l : (2 <= n <= 6)%nat -> (length l <= n)%nat -> w0 n l = 0.
Proof.
  intros Hn H. unfold w0. destruct (window_bad n l 0) eqn:E; auto.
  apply (window_bad_spec n l 0 Hn) in E. apply block_at_nth in E. lia.
Qed.

Lemma wv_short n l : (2 <= n <= 6)%nat -> (length l <= n)%nat -> wv n l = 0.
Proof.
  intros Hn; induction l as [|a t IH]; intros H; [reflexivity|].
  rewrite wv_cons, w0_short, IH by (auto; cbn in *; lia). reflexivity.
Qed.

Lemma lastn_short {A} n (l : list A) : (length l <= n)%nat -> lastn n l = l.
Proof. intros H. unfold lastn. replace (length l - n)%nat with 0%nat by lia. reflexivity. Qed.

Lemma lastn_cons {A} n (a : A) t : (n <= length t)%nat -> lastn n (a :: t) = lastn n t.
Proof. intros H. unfold lastn. cbn [length]. replace (S (length t) - n)%nat with (S (length t - n)) by lia. reflexivity. Qed.

Lemma lastn_length {A} n (l : list A) : (length (lastn n l) <= n)%nat.
Proof. unfold lastn. rewrite skipn_length. lia. Qed.

Lemma wv_app n l m : (2 <= n <= 6)%nat ->
  wv n (l ++ m) = wv n l + wv n m + wv n (lastn n l ++ firstn n m).
Proof.
  intros Hn. induction l as [|a t IH].
  - cbn [app]. change (lastn n []) with (skipn (0 - n) (@nil Z)). cbn. 
    replace (lastn n []) with (@nil Z) by (unfold lastn; cbn; reflexivity). cbn [app].
    rewrite (wv_short n (firstn n m)) by (auto; apply firstn_le_length). change (wv n []) with 0. lia.
  - cbn [app]. rewrite !wv_cons, IH. destruct (le_lt_dec n (length t)) as [G|G].
    + rewrite lastn_cons by exact G.
      rewrite (w0_firstn n (a :: t ++ m) (a :: t)); [lia|].
      cbn [firstn]. f_equal. rewrite firstn_app. replace (n - length t)%nat with 0%nat by lia. cbn [firstn]. apply app_nil_r.
    + rewrite !lastn_short by (cbn; lia). cbn [app]. rewrite wv_cons.
      rewrite (w0_short n (a :: t)) by (auto; cbn; lia).
      rewrite (w0_firstn n (a :: t ++ firstn n m) (a :: t ++ m)); [lia|].
      cbn [firstn]. f_equal. rewrite !firstn_app, firstn_firstn. do 2 f_equal. lia.
Qed.

Lemma one_window n l : (2 <= n <= 6)%nat -> (length l <= S n)%nat ->
  wv n l = w0 n l /\ is_contig l n = Ok (w0 n l =? 0).
Proof.
  intros Hn L. split.
  - destruct l as [|a t]; [symmetry; apply w0_short; cbn; auto; lia|]. rewrite wv_cons, (wv_short n t) by (auto; cbn in *; lia). lia.
  - destruct (window_bad_spec n l 0 Hn) as [E _].
    assert (X : slice 0 (0 + n + 1) l = l) by (unfold slice; cbn [skipn]; apply firstn_all2; lia).
    rewrite X in E. rewrite E. f_equal. unfold w0. destruct (window_bad n l 0); reflexivity.
Qed.

Lemma vector_sum n l : (2 <= n <= 6)%nat -> exists v, calc_contig_vector l n = Ok v /\ sumZ v = wv n l.
Proof.
  intros Hn. unfold calc_contig_vector. destruct (Nat.ltb_spec 0 (length l - n)) as [G|G].
  - rewrite (mapM_ok _ (fun ind => if window_bad n l ind then 1 else 0)).
    2:{ intros i _; destruct (window_bad_spec n l i Hn) as [-> _]; cbn [bind]. destruct (window_bad n l i); reflexivity. }
    eexists; split; [reflexivity|].
    apply (counts_unique _ _ (fun i => block_at (S n) i l)); [|apply wv_counts, Hn].
    destruct (counts_filter (fun i => window_bad n l i) (length l - n)) as [s [Hd [Hi Hc]]].
    exists s; split; auto; split.
    + intros i; split; intros H.
      * apply Hi in H; apply (window_bad_spec n l i Hn); tauto.
      * apply Hi; split; [|apply (window_bad_spec n l i Hn); exact H]. apply block_at_nth in H; lia.
    + rewrite <- Hc. clear. unfold nb_true. induction (seq 0 (length l - n)) as [|x q IHq]; [reflexivity|].
      cbn [map]. rewrite sumZ_cons, IHq. unfold countb; cbn [filter]. destruct (window_bad n l x); cbn [length]; lia.
  - exists []; split; [reflexivity|]. rewrite wv_short by (auto; lia). reflexivity.
Qed.

Lemma has_block_rev n l : has_block n (rev l) -> has_block n l.
Proof.
  intros (a & l1 & l2 & E). exists a, (rev l2), (rev l1).
  rewrite <- (rev_involutive l), E, !rev_app_distr, <- app_assoc. f_equal. f_equal.
  clear. induction n as [|n IH]; [reflexivity|]. cbn [repeat rev]. rewrite IH. clear.
  induction n as [|n IH]; [reflexivity|]. cbn [repeat app]. now rewrite IH.
Qed.

Lemma w0_rev n l : (2 <= n <= 6)%nat -> (length l <= S n)%nat -> w0 n (rev l) = w0 n l.
Proof.
  intros Hn L.
  destruct (one_window n l Hn L) as [_ E1]. destruct (one_window n (rev l) Hn ltac:(rewrite rev_length; lia)) as [_ E2].
  destruct (is_contig_spec n l Hn) as (b1 & F1 & G1). destruct (is_contig_spec n (rev l) Hn) as (b2 & F2 & G2).
  rewrite E1 in F1; rewrite E2 in F2. injection F1 as F1. injection F2 as F2.
  assert (X : b1 = true <-> b2 = true).
  { rewrite G1, G2. unfold contig_stack. split; intros H K; apply H.
    - apply has_block_rev; exact K.
    - apply has_block_rev; rewrite rev_involutive; exact K. }
  unfold w0 in *. destruct (window_bad n l 0), (window_bad n (rev l) 0); subst; cbn in X; try reflexivity; exfalso; intuition discriminate.
Qed.

Lemma firstn_rev_lastn {A} n (l : list A) : firstn n (rev l) = rev (lastn n l).
Proof. unfold lastn. apply firstn_rev. Qed.

Lemma wv_snoc n l a : (2 <= n <= 6)%nat -> wv n (l ++ [a]) = wv n l + w0 n (lastn n l ++ [a]).
Proof.
  intros Hn. rewrite wv_app by exact Hn. rewrite (wv_short n [a]) by (auto; cbn; lia).
  rewrite (firstn_all2 [a]) by (cbn; lia).
  destruct (one_window n (lastn n l ++ [a]) Hn) as [E _]; [rewrite app_length; pose proof (lastn_length n l); cbn; lia|].
  rewrite E. lia.
Qed.

Lemma w0_cons_firstn n a s : w0 n (a :: firstn n s) = w0 n (a :: s).
Proof. apply w0_firstn. cbn [firstn]. f_equal. rewrite firstn_firstn. f_equal. lia. Qed.

Lemma wv_rev n l : (2 <= n <= 6)%nat -> wv n (rev l) = wv n l.
Proof.
  intros Hn. induction l as [|a l IH] using rev_ind; [reflexivity|].
  rewrite rev_app_distr; cbn [rev app]. rewrite wv_cons, wv_snoc, IH by exact Hn.
  rewrite <- w0_cons_firstn, firstn_rev_lastn.
  replace (a :: rev (lastn n l)) with (rev (lastn n l ++ [a])) by (rewrite rev_app_distr; reflexivity).
  rewrite w0_rev; [lia|exact Hn|]. rewrite app_length; pose proof (lastn_length n l); cbn; lia.
Qed.

Lemma tail_lastn n s : (2 <= n)%nat -> tail_of n s = lastn n s.
Proof. destruct n; [lia|reflexivity]. Qed.

Lemma add_vector_ok p s c v : (2 <= n_contig c <= 6)%nat -> (p < length v)%nat ->
  add_vector p s c v = Ok (upd p (nth p v 0 + wv (n_contig c) s) v).
Proof.
  intros Hn Hp. unfold add_vector. destruct (vector_sum (n_contig c) s Hn) as (x & -> & <-). cbn [bind]. apply bump_ok, Hp.
Qed.

Lemma closed_nth a k level pdl h p : length h = length pdl -> (p < length pdl)%nat ->
  nth p (closed a k level pdl h) [] = if kept pdl p level then nth p h [] ++ repeat a k ++ rev (nth p h []) else nth p h [] ++ rev (nth p h []).
Proof.
  intros H L; unfold closed. set (f := fun rh : list Z * list Z => let (row, h) := rh in if 0 <=? nth level row 0 then h ++ repeat a k ++ rev h else h ++ rev h).
  rewrite (nth_indep _ [] (f ([], []))) by (rewrite map_length, combine_length; lia).
  rewrite (map_nth f), combine_nth by lia. reflexivity.
Qed.

Lemma closed_length a k level pdl h : length h = length pdl -> length (closed a k level pdl h) = length pdl.
Proof. intros H; unfold closed; rewrite map_length, combine_length; lia. Qed.

Lemma halves_wv n v bot top : (2 <= n <= 6)%nat -> length bot = length top ->
  (exact_contig_halves n v bot top <-> length v = length bot /\ forall p, (p < length bot)%nat -> nth p v 0 = wv n (nth p bot []) + wv n (nth p top [])).
Proof.
  intros Hn LL. unfold exact_contig_halves. split.
  - intros E. destruct (F2_nth _ _ _ 0 ([], []) E) as [L N]. rewrite combine_length in L. split; [lia|].
    intros p Hp. destruct (N p ltac:(lia)) as (m & k & Hm & Hk & ->). rewrite combine_nth2 in Hm, Hk by exact LL. cbn [fst snd] in *.
    f_equal; eapply counts_unique; eauto; apply wv_counts; auto.
  - intros [L N]. apply (nth_F2 _ _ _ 0 ([], [])); [rewrite combine_length; lia|].
    intros p Hp. rewrite combine_nth2 by exact LL. cbn [fst snd]. exists (wv n (nth p bot [])), (wv n (nth p top [])).
    split; [apply wv_counts; auto|]. split; [apply wv_counts; auto|]. apply N; lia.
Qed.

Lemma exact_wv n v stacks : (2 <= n <= 6)%nat -> length v = length stacks ->
  (forall p, (p < length stacks)%nat -> nth p v 0 = wv n (nth p stacks [])) -> exact_contig n v stacks.
Proof.
  intros Hn L N. apply (nth_F2 _ _ _ 0 []); [exact L|]. intros p Hp. rewrite N by lia. apply wv_counts, Hn.
Qed.

Lemma cross_mid n l x m : (2 <= n <= 6)%nat -> (length x <= 2)%nat ->
  wv n (l ++ x ++ m) = wv n l + wv n m + wv n (lastn n l ++ x ++ firstn n m).
Proof.
  intros Hn Hx.
  rewrite (wv_app n l (x ++ m) Hn), (wv_app n x m Hn).
  rewrite (wv_app n (lastn n l) (x ++ firstn n m) Hn), (wv_app n x (firstn n m) Hn).
  rewrite (wv_short n x) by (auto; lia).
  rewrite (wv_short n (lastn n l)) by (auto using lastn_length).
  rewrite (wv_short n (firstn n m)) by (auto; apply firstn_le_length).
  rewrite (lastn_short n (lastn n l)) by apply lastn_length.
  rewrite (firstn_firstn m), Nat.min_id.
  rewrite !(firstn_app n x), firstn_firstn.
  replace (Nat.min (n - length x) n) with (n - length x)%nat by lia.
  lia.
Qed.

(* ------------------------------------------------------------------ *)
(** * C83 *)

(** asymmetric laminates, last level: the blocks across the junction are added *)
Theorem C83_asymmetric_last_partial : forall c pdl level a bot top viola middle,
  sym c = false -> (2 <= n_contig c <= 6)%nat ->
  covers pdl (S level) -> length bot = length pdl -> length top = length pdl ->
  exact_contig_halves (n_contig c) viola bot top ->
  exists viola',
    calc_n_viola_contig viola bot (Arr [a]) (length pdl) c level pdl top true middle = Ok viola' /\
    exact_contig (n_contig c) viola' (joined_halves (put_under a level pdl bot) top).
Proof.
  intros c pdl level a bot top viola middle S Hn C Lb Lt E.
  destruct (proj1 (halves_wv _ _ _ _ Hn (eq_trans Lb (eq_sym Lt))) E) as [L N].
  unfold calc_n_viola_contig. rewrite S. cbn [negb andb].
  set (x := fun p => if kept pdl p level then [a] else []).
  destruct (each_bump (contig_junction bot (Arr [a]) level pdl c top)
     (fun p => wv (n_contig c) (lastn (n_contig c) (nth p bot []) ++ x p ++ firstn (n_contig c) (nth p top []))) viola (length pdl)) as (r & Er & Lr & Nr).
  - lia.
  - intros p v Hp Hv. unfold contig_junction.
    rewrite drop_ok; [|exact Hp|unfold covers in C; rewrite Forall_forall in C; apply C, nth_In, Hp].
    cbn [bind]. rewrite (get_ok bot p []) by lia. cbn [bind child_first]. rewrite get_first. cbn [bind].
    rewrite (get_ok top p []) by lia. unfold x, kept.
    destruct (0 <=? nth level (nth p pdl []) 0); cbn [bind]; rewrite add_vector_ok, tail_lastn by (auto; lia); reflexivity.
  - exists r. split; [exact Er|]. apply exact_wv; [exact Hn| |].
    + unfold joined_halves. rewrite map_length, combine_length, put_under_length by auto. lia.
    + unfold joined_halves at 1. rewrite map_length, combine_length, put_under_length by auto. intros p Hp.
      rewrite joined_nth by (rewrite put_under_length; lia). rewrite put_under_nth by lia.
      rewrite Nr, N by lia. destruct (Nat.ltb_spec p (length pdl)); [|lia]. unfold x.
      destruct (kept pdl p level).
      * rewrite <- app_assoc. rewrite (cross_mid _ (nth p bot []) [a] (nth p top [])) by (auto; cbn; lia). lia.
      * pose proof (cross_mid _ (nth p bot []) [] (nth p top []) Hn ltac:(cbn; lia)) as X. cbn [app] in X |- *. lia.
Qed.

(** asymmetric laminates, a ply over the top half *)
Theorem C83_asymmetric_top_partial : forall c pdl level a bot top viola middle,
  sym c = false -> Nat.even level = false -> (2 <= n_contig c <= 6)%nat ->
  covers pdl (S level) -> length bot = length pdl -> length top = length pdl ->
  exact_contig_halves (n_contig c) viola bot top ->
  exists viola',
    calc_n_viola_contig viola bot (Arr [a]) (length pdl) c level pdl top false middle = Ok viola' /\
    exact_contig_halves (n_contig c) viola' bot (put_over a level pdl top).
Proof.
  intros c pdl level a bot top viola middle S Ev Hn C Lb Lt E.
  destruct (proj1 (halves_wv _ _ _ _ Hn (eq_trans Lb (eq_sym Lt))) E) as [L N].
  unfold calc_n_viola_contig. rewrite S, Ev. cbn [negb andb orb].
  destruct (each_bump (contig_top top (Arr [a]) level pdl c)
     (fun p => if kept pdl p level then w0 (n_contig c) (a :: nth p top []) else 0) viola (length pdl)) as (r & Er & Lr & Nr).
  - lia.
  - intros p v Hp Hv. unfold contig_top.
    rewrite drop_ok; [|exact Hp|unfold covers in C; rewrite Forall_forall in C; apply C, nth_In, Hp].
    cbn [bind]. unfold kept. destruct (0 <=? nth level (nth p pdl []) 0); [|apply noop].
    rewrite (get_ok top p []) by lia. cbn [bind child_first]. rewrite get_first. cbn [bind].
    destruct (nth p top []) as [|y t] eqn:Et.
    + rewrite w0_short by (auto; cbn; lia). apply noop.
    + rewrite <- Et. destruct (vector_sum (n_contig c) (a :: firstn (n_contig c) (nth p top [])) Hn) as (q & -> & _). cbn [bind].
      destruct (one_window (n_contig c) (a :: firstn (n_contig c) (nth p top [])) Hn) as [_ ->].
      { cbn [length]. pose proof (firstn_le_length (n_contig c) (nth p top [])). lia. }
      cbn [bind]. rewrite w0_cons_firstn. unfold w0. destruct (window_bad (n_contig c) (a :: nth p top []) 0); cbn [Z.eqb].
      * apply bump_ok. lia.
      * apply noop.
  - exists r. split; [exact Er|]. apply halves_wv; [exact Hn|rewrite put_over_length; lia|]. split; [lia|].
    intros p Hp. rewrite Nr, N by lia. rewrite put_over_nth by lia. destruct (Nat.ltb_spec p (length pdl)); [|lia].
    destruct (kept pdl p level); [rewrite wv_cons|]; lia.
Qed.

(** symmetric laminates, last level, the new angle given as a number: the blocks across
    the symmetry plane are added *)
Theorem C83_symmetric_last_partial : forall c pdl level a bot top viola middle,
  sym c = true -> (2 <= n_contig c <= 6)%nat ->
  covers pdl (S level) -> length bot = length pdl ->
  exact_contig_halves (n_contig c) viola bot (map (@rev Z) bot) ->
  exists viola',
    calc_n_viola_contig viola bot (Num a) (length pdl) c level pdl top true middle = Ok viola' /\
    exact_contig (n_contig c) viola' (closed a (if middle then 1 else 2) level pdl bot).
Proof.
  intros c pdl level a bot top viola middle S Hn C Lb E.
  destruct (proj1 (halves_wv _ _ _ _ Hn (eq_sym (map_length (@rev Z) bot))) E) as [L N].
  assert (Rn : forall p, nth p (map (@rev Z) bot) [] = rev (nth p bot [])) by (intros p; exact (map_nth (@rev Z) bot [] p)).
  assert (G : forall k, (k <= 2)%nat -> exists r, each (contig_mirror k bot (Num a) level pdl c) (seq 0 (length pdl)) viola = Ok r /\
              exact_contig (n_contig c) r (closed a k level pdl bot)).
  { intros k Hk. set (x := fun p => if kept pdl p level then repeat a k else []).
    destruct (each_bump (contig_mirror k bot (Num a) level pdl c)
       (fun p => wv (n_contig c) (lastn (n_contig c) (nth p bot []) ++ x p ++ firstn (n_contig c) (rev (nth p bot [])))) viola (length pdl)) as (r & Er & Lr & Nr).
    - lia.
    - intros p v Hp Hv. unfold contig_mirror.
      rewrite drop_ok; [|exact Hp|unfold covers in C; rewrite Forall_forall in C; apply C, nth_In, Hp].
      cbn [bind]. rewrite (get_ok bot p []) by lia. cbn [bind child_wrapped]. unfold x, kept.
      assert (Cc : concat (repeat [a] k) = repeat a k) by (clear; induction k as [|k IH]; cbn; [reflexivity|now rewrite IH]).
      destruct (0 <=? nth level (nth p pdl []) 0); cbn [bind]; rewrite ?Cc; rewrite add_vector_ok, tail_lastn, firstn_rev_lastn by (auto; lia); reflexivity.
    - exists r. split; [exact Er|]. apply exact_wv; [exact Hn|rewrite closed_length by auto; lia|].
      rewrite closed_length by auto. intros p Hp. rewrite closed_nth by auto. rewrite Nr, N, Rn by lia.
      destruct (Nat.ltb_spec p (length pdl)); [|lia]. unfold x. destruct (kept pdl p level).
      + rewrite (cross_mid _ (nth p bot []) (repeat a k) (rev (nth p bot []))) by (auto; rewrite repeat_length; lia). lia.
      + pose proof (cross_mid _ (nth p bot []) [] (rev (nth p bot [])) Hn ltac:(cbn; lia)) as X. cbn [app] in X |- *. lia. }
  unfold calc_n_viola_contig. rewrite S. cbn [negb andb orb].
  destruct middle; cbn [negb andb]; apply G; lia.
Qed.

(** a ply under the bottom half, away from the last level: when every panel has the ply
    and has plies already, each new block is counted twice (three times in symmetric
    laminates, where it makes two blocks) *)
Theorem C83_bottom_counts_partial : forall c pdl level a bot top viola last middle,
  sym c = true /\ last = false \/ sym c = false /\ Nat.even level = true /\ last = false ->
  (2 <= n_contig c <= 6)%nat ->
  covers pdl (S level) -> length bot = length pdl -> length viola = length pdl ->
  Forall (fun row => 0 <= nth level row 0) pdl -> Forall (fun b => b <> []) bot ->
  exists viola',
    calc_n_viola_contig viola bot (Arr [a]) (length pdl) c level pdl top last middle = Ok viola' /\
    length viola' = length viola /\
    forall p m, (p < length pdl)%nat ->
      counts m (fun i => block_at (S (n_contig c)) i (nth p bot [])) ->
      counts (m + (nth p viola' 0 - nth p viola 0) / (if sym c then 3 else 2))
             (fun i => block_at (S (n_contig c)) i (nth p bot [] ++ [a])) /\
      (nth p viola' 0 - nth p viola 0) mod (if sym c then 3 else 2) = 0.
Proof.
  intros c pdl level a bot top viola last middle K Hn C Lb Lv Kp Ne.
  assert (Pk : forall p, (p < length pdl)%nat -> kept pdl p level = true).
  { intros p Hp. unfold kept. apply Z.leb_le. rewrite Forall_forall in Kp. apply Kp, nth_In, Hp. }
  assert (Pn : forall p, (p < length pdl)%nat -> nth p bot [] <> []).
  { intros p Hp. rewrite Forall_forall in Ne. apply Ne, nth_In. lia. }
  set (w := if sym c then 2 else 1).
  set (d := fun p => (w + 1) * w0 (n_contig c) (lastn (n_contig c) (nth p bot []) ++ [a])).
  assert (G : forall m, (m <= length pdl)%nat -> exists r o, each (contig_bottom bot (Arr [a]) level pdl c) (seq 0 m) (viola, None) = Ok (r, o) /\ length r = length viola /\
              forall p, nth p r 0 = nth p viola 0 + (if Nat.ltb p m then d p else 0)).
  { induction m as [|m IH]; intros Hm.
    - exists viola, None. split; [reflexivity|]. split; auto. intros p; destruct (Nat.ltb_spec p 0); lia.
    - destruct IH as (r & o & E & L & N); [lia|].
      replace (S m) with (m + 1)%nat by lia. rewrite seq_app, each_app, E. cbn [bind Nat.add seq each].
      unfold contig_bottom. rewrite drop_ok; [|lia|unfold covers in C; rewrite Forall_forall in C; apply C, nth_In; lia].
      cbn [bind]. pose proof (Pk m ltac:(lia)) as Km. unfold kept in Km. rewrite Km. cbn [bind].
      rewrite (get_ok bot m []) by lia. cbn [bind child_first]. rewrite get_first. cbn [bind andb].
      destruct (nth m bot []) as [|y t] eqn:Eb; [exfalso; apply (Pn m); auto; lia|]. rewrite <- Eb. cbn [negb].
      rewrite tail_lastn by lia.
      assert (Le : (length (lastn (n_contig c) (nth m bot []) ++ [a]) <= S (n_contig c))%nat).
      { rewrite app_length; pose proof (lastn_length (n_contig c) (nth m bot [])); cbn [length]; lia. }
      destruct (one_window (n_contig c) (lastn (n_contig c) (nth m bot []) ++ [a]) Hn Le) as [W ->]. cbn [bind].
      assert (B : (if w0 (n_contig c) (lastn (n_contig c) (nth m bot []) ++ [a]) =? 0 then Ok r else bump m w r) = Ok (upd m (nth m r 0 + w * w0 (n_contig c) (lastn (n_contig c) (nth m bot []) ++ [a])) r)).
      { unfold w0. destruct (window_bad (n_contig c) (lastn (n_contig c) (nth m bot []) ++ [a]) 0); cbn [Z.eqb].
        - rewrite bump_ok by lia. do 2 f_equal. lia.
        - rewrite Z.mul_0_r. apply noop. }
      fold w. rewrite B. cbn [bind]. rewrite add_vector_ok by (auto; rewrite upd_length; lia). cbn [bind].
      eexists _, _. split; [reflexivity|]. rewrite !upd_length. split; [exact L|].
      intros p. rewrite W, !nth_upd, !upd_length. rewrite Nat.eqb_refl. cbn [andb].
      destruct (Nat.ltb_spec m (length r)) as [Z1|]; [|lia]. rewrite andb_true_r, N.
      destruct (Nat.eqb_spec m p).
      + subst p. rewrite ?N. destruct (Nat.ltb_spec m m); [lia|]. destruct (Nat.ltb_spec m (m + 1)); [|lia]. unfold d. clearbody w. lia.
      + rewrite N. destruct (Nat.ltb_spec p m), (Nat.ltb_spec p (m + 1)); lia. }
  destruct (G (length pdl) ltac:(lia)) as (r & o & E & L & N).
  exists r. split.
  { unfold calc_n_viola_contig. destruct K as [[S ->]|(S & Ev & ->)]; rewrite S, ?Ev; cbn [negb andb orb]; rewrite E; reflexivity. }
  split; [exact L|]. intros p m Hp Hm.
  assert (m = wv (n_contig c) (nth p bot [])) as -> by (eapply counts_unique; [exact Hm|apply wv_counts, Hn]).
  rewrite N. destruct (Nat.ltb_spec p (length pdl)); [|lia].
  replace (nth p viola 0 + d p - nth p viola 0) with (d p) by lia. unfold d.
  assert (Ew : (if sym c then 3 else 2) = w + 1) by (unfold w; destruct (sym c); reflexivity). rewrite Ew.
  assert (Wp : w + 1 <> 0) by (unfold w; destruct (sym c); lia). clearbody w.
  rewrite Z.mul_comm, Z.div_mul, Z.mod_mul by exact Wp. split; [|reflexivity].
  rewrite <- wv_snoc by exact Hn. apply wv_counts, Hn.
Qed.

(** so the counters are wrong: *)
Theorem C83_bottom_refuted :
  ~ (forall c pdl level a bot top viola viola' middle,
       (2 <= n_contig c <= 6)%nat -> covers pdl (S level) -> length bot = length pdl ->
       exact_contig_halves (n_contig c) viola bot (map (@rev Z) bot) -> sym c = true ->
       calc_n_viola_contig viola bot (Arr [a]) (length pdl) c level pdl top false middle = Ok viola' ->
       exact_contig_halves (n_contig c) viola' (put_under a level pdl bot)
                           (map (@rev Z) (put_under a level pdl bot))).
Proof.
  intros H.
  specialize (H cons_ex [[0; 1; 2]] 2%nat 0 [[0; 0]] [] [0] [3] false).
  assert (Hn : (2 <= n_contig cons_ex <= 6)%nat) by (cbn; lia).
  assert (X : exact_contig_halves (n_contig cons_ex) [3] (put_under 0 2 [[0; 1; 2]] [[0; 0]]) (map (@rev Z) (put_under 0 2 [[0; 1; 2]] [[0; 0]]))).
  { apply H; auto; [repeat constructor|]. apply halves_wv; auto. split; [reflexivity|]. intros [|p] Hp; [vm_compute; reflexivity|cbn in Hp; lia]. }
  apply halves_wv in X; auto. destruct X as [_ X]. specialize (X 0%nat ltac:(cbn; lia)). vm_compute in X. discriminate.
Qed.

(** a panel without the new ply is charged with the violations of the panel before it *)
Theorem C83_stale_refuted :
  ~ (forall c pdl level a bot top viola viola' middle p,
       (2 <= n_contig c <= 6)%nat -> covers pdl (S level) -> length bot = length pdl ->
       exact_contig_halves (n_contig c) viola bot (map (@rev Z) bot) -> sym c = true ->
       calc_n_viola_contig viola bot (Arr [a]) (length pdl) c level pdl top false middle = Ok viola' ->
       (p < length pdl)%nat -> nth level (nth p pdl []) 0 < 0 -> nth p viola' 0 = nth p viola 0).
Proof.
  intros H.
  specialize (H cons_ex [[0; 1; 2]; [0; -1; -1]] 2%nat 0 [[0; 0]; [0]] [] [0; 0] [3; 1] false 1%nat).
  assert (Hn : (2 <= n_contig cons_ex <= 6)%nat) by (cbn; lia).
  assert (X : nth 1 [3; 1] 0 = nth 1 [0; 0] 0).
  { apply H; auto; cbn [length nth]; try lia; [repeat constructor|]. apply halves_wv; auto. split; [reflexivity|]. intros [|[|p]] Hp; [vm_compute; reflexivity|vm_compute; reflexivity|cbn in Hp; lia]. }
  discriminate.
Qed.

(** the first ply of the first panel, or a first panel without the new ply: the call
    fails *)
Theorem C83_first_panel_unbound : forall c pdl level child bot top viola last middle row rows b,
  pdl = row :: rows -> covers pdl (S level) -> length bot = length pdl ->
  nth_error bot 0 = Some b -> (nth level row 0 < 0 \/ b = []) ->
  (sym c = true /\ last = false \/ sym c = false /\ Nat.even level = true /\ last = false) ->
  calc_n_viola_contig viola bot child (length pdl) c level pdl top last middle = Err Unbound.
Proof.
  intros c pdl level child bot top viola last middle row rows b -> C Lb Eb Hd K.
  assert (E : each (contig_bottom bot child level (row :: rows) c) (seq 0 (length (row :: rows))) (viola, None) = Err Unbound).
  { cbn [length seq each]. unfold contig_bottom at 1.
    rewrite drop_ok; [|cbn; lia|unfold covers in C; rewrite Forall_forall in C; apply C; left; reflexivity].
    cbn [bind nth]. destruct Hd as [Hd| ->].
    - assert (0 <=? nth level row 0 = false) as -> by (apply Z.leb_gt; exact Hd). reflexivity.
    - destruct bot as [|b' bs]; [discriminate|]. cbn [nth_error] in Eb. injection Eb as ->.
      destruct (0 <=? nth level row 0); [|reflexivity].
      rewrite (get_ok ([] :: bs) 0 []) by (cbn; lia). reflexivity. }
  unfold calc_n_viola_contig. destruct K as [[S ->]|(S & Ev & ->)]; rewrite S, ?Ev; cbn [negb andb orb]; rewrite E; reflexivity.
Qed.

(** the last ply of a symmetric laminate, given as the other levels need it: the call
    fails *)
Theorem C83_last_array_raises : forall c pdl level l bot top viola middle row rows,
  pdl = row :: rows -> covers pdl (S level) -> length bot = length pdl ->
  0 <= nth level row 0 -> sym c = true ->
  calc_n_viola_contig viola bot (Arr l) (length pdl) c level pdl top true middle = Err ValueError.
Proof.
  intros c pdl level l bot top viola middle row rows -> C Lb Hd S.
  assert (E : forall k, each (contig_mirror k bot (Arr l) level (row :: rows) c) (seq 0 (length (row :: rows))) viola = Err ValueError).
  { intros k. cbn [length seq each]. unfold contig_mirror at 1.
    rewrite drop_ok; [|cbn; lia|unfold covers in C; rewrite Forall_forall in C; apply C; left; reflexivity].
    cbn [bind nth]. rewrite (get_ok bot 0 []) by (rewrite Lb; cbn; lia). cbn [bind].
    assert (0 <=? nth level row 0 = true) as -> by (apply Z.leb_le; exact Hd). reflexivity. }
  unfold calc_n_viola_contig. rewrite S. cbn [negb andb orb]. destruct middle; cbn [negb]; apply E.
Qed.

Example C83_examples :
  calc_n_viola_contig [0; 0] [[0; 0]; [90]] (Arr [0]) 2 cons_asym 4 [[0; 1; 2; 3; 4]; [0; 1; -1; -1; -1]] [[0; 90]; [90; 90]] true false
    = Ok [2; 1] /\
  calc_n_viola_contig [0] [[0; 0]] (Arr [90]) 1 cons_asym 3 [[0; 1; 2; 3]] [[90; 90; 0]] false false = Ok [1] /\
  calc_n_viola_contig [0; 0] [[90; 0]; [0]] (Num 0) 2 cons_ex 2 [[0; 1; 2]; [0; -1; -1]] [] true true = Ok [1; 0] /\
  calc_n_viola_contig [0] [[90; 0]] (Num 0) 1 cons_ex 2 [[0; 1; 2]] [] true false = Ok [2] /\
  calc_n_viola_contig [0; 0] [[0; 0]; [90]] (Arr [0]) 2 cons_ex 2 [[0; 1; 2]; [0; -1; 1]] [] false false = Ok [3; 0].
Proof. vm_compute. repeat split. Qed.

Print Assumptions C83_asymmetric_last_partial.
Print Assumptions C83_asymmetric_top_partial.
Print Assumptions C83_symmetric_last_partial.
Print Assumptions C83_bottom_counts_partial.
Print Assumptions C83_bottom_refuted.
Print Assumptions C83_stale_refuted.
Print Assumptions C83_first_panel_unbound.
Print Assumptions C83_last_array_raises.

(** and before the last level a bare number is refused: no form of the argument can be used from
    the first to the last level of a symmetric laminate *)
Theorem C83_number_raises : forall c pdl level a bot top viola middle row rows b,
  pdl = row :: rows -> covers pdl (S level) -> length bot = length pdl ->
  nth_error bot 0 = Some b -> b <> [] -> 0 <= nth level row 0 -> sym c = true ->
  calc_n_viola_contig viola bot (Num a) (length pdl) c level pdl top false middle = Err TypeError.
Proof.
  intros c pdl level a bot top viola middle row rows b -> C Lb Eb Nb Hd S.
  assert (E : each (contig_bottom bot (Num a) level (row :: rows) c) (seq 0 (length (row :: rows))) (viola, None) = Err TypeError).
  { cbn [length seq each]. unfold contig_bottom at 1.
    rewrite drop_ok; [|cbn; lia|unfold covers in C; rewrite Forall_forall in C; apply C; left; reflexivity].
    cbn [bind nth]. assert (0 <=? nth level row 0 = true) as -> by (apply Z.leb_le; exact Hd).
    destruct bot as [|b' bs]; [discriminate|]. cbn [nth_error] in Eb. injection Eb as ->.
    rewrite (get_ok (b :: bs) 0 []) by (cbn; lia). cbn [bind nth]. destruct b; [congruence|]. reflexivity. }
  unfold calc_n_viola_contig. rewrite S. cbn [negb andb orb]. rewrite E. reflexivity.
Qed.
Print Assumptions C83_number_raises.
