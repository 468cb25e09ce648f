(* Properties_search.v - property theorems C28, C32, C33 (selection steps). *)
From Coq Require Import Lqa.
From Verif Require Import Base Search SearchProofs.
Local Open Scope Z_scope.

(* ------------------------------------------------------------------ *)
(** ** C32 *)

(** the entries of a table whose flag is true, in the original order *)
Definition kept_entries {A} (fs : list bool) (l : list A) : list A :=
  map snd (filter fst (combine fs l)).

Lemma kept_all n : forall A (l : list A), length l = n -> l = kept_entries (repeat true n) l.
Proof.
  intros A l <-. unfold kept_entries. induction l as [|a l IH]; cbn; [reflexivity|]. f_equal; auto.
Qed.

(** local pruning: all tables keep the same nodes; nodes other than the last n_local are
    all kept; exactly min(limit, n_local) of the children are kept, and no removed child
    has a smaller objective than a kept one *)
Theorem C32_local_pruning : forall (S T : Type) (t : tables_of S T) n_local limit,
  let n := length (t_obj t) in
  length (t_ss t) = n -> length (t_num t) = n -> (n_local <= n)%nat ->
  (forall x, In x (t_obj t) -> -6666 < x)%Q ->
  exists t' fs, local_pruning false n_local limit t = Ok t' /\ length fs = n /\
    t_ss t' = kept_entries fs (t_ss t) /\ t_num t' = kept_entries fs (t_num t) /\ t_obj t' = kept_entries fs (t_obj t) /\
    (forall i, (i < n - n_local)%nat -> nth i fs false = true) /\
    countb (fun b => b) (skipn (n - n_local) fs) = Nat.min limit n_local /\
    (forall i j, (n - n_local <= i < n)%nat -> (n - n_local <= j < n)%nat ->
       nth i fs false = true -> nth j fs false = false -> (nth i (t_obj t) 0 <= nth j (t_obj t) 0)%Q).
Proof.
  intros S T t n_local limit n L1 L2 Hn Hs. unfold local_pruning. cbn [negb andb].
  destruct (limit <? n_local)%nat eqn:E.
  - apply Nat.ltb_lt in E.
    set (v := lastn n_local (t_obj t)).
    assert (Lv : length v = n_local) by (unfold v, lastn; rewrite skipn_length; fold n; lia).
    destruct (mark_spec _ _ max_ordering local_sentinel v (n_local - limit)) as [idx [w [Em [Li [N [B [_ [_ Sp]]]]]]]].
    + intros x Hx. apply Qltb_true. unfold local_sentinel. unfold v, lastn in Hx.
      assert (Hx' : In x (t_obj t)) by (rewrite <- (firstn_skipn (length (t_obj t) - n_local) (t_obj t)); apply in_or_app; right; auto).
      specialize (Hs x Hx'). exact Hs.
    + lia.
    + unfold argmax. rewrite Em. cbn [bind fst snd].
      set (to_del := map (fun i => (i + (length (t_obj t) - n_local))%nat) idx). fold n in to_del.
      assert (Nd : NoDup to_del).
      { unfold to_del. clear - N. induction N as [|a l Na Nl IH]; cbn; constructor; auto.
        intros H. apply Na. apply in_map_iff in H. destruct H as [b [Eb Hb]]. replace a with b by lia. exact Hb. }
      assert (Bd : forall i, In i to_del -> (n - n_local <= i < n)%nat).
      { intros i Hi. unfold to_del in Hi. apply in_map_iff in Hi. destruct Hi as [b [<- Hb]]. apply B in Hb. lia. }
      eexists; exists (flags 0 n to_del). split; [reflexivity|]. cbn [t_ss t_num t_obj].
      split; [apply flags_length|].
      rewrite del_desc_keepf by auto. rewrite !np_delete_keepf, L1, L2. fold n.
      split; [reflexivity|]. split; [reflexivity|]. split; [reflexivity|].
      split; [|split].
      * intros i Hi. rewrite flags_nth by lia. cbn [plus].
        replace (existsb (Nat.eqb i) to_del) with false; [reflexivity|]. symmetry. apply existsb_nIn.
        intros H. apply Bd in H. lia.
      * pose proof (flags_count n to_del Nd ltac:(intros i Hi; apply Bd in Hi; lia)) as C.
        assert (Lt : length to_del = (n_local - limit)%nat) by (unfold to_del; rewrite map_length; lia).
        set (fs := flags 0 n to_del) in *.
        assert (Lf : length fs = n) by apply flags_length.
        assert (CS : (countb (fun b : bool => b) fs + countb negb fs = length fs)%nat) by exact (countb_split (fun b : bool => b) fs).
        rewrite <- (firstn_skipn (n - n_local) fs) in CS at 1. unfold countb in CS at 1. rewrite filter_app, app_length in CS.
        fold (countb (fun b : bool => b) (firstn (n - n_local) fs)) in CS.
        fold (countb (fun b : bool => b) (skipn (n - n_local) fs)) in CS.
        assert (F : countb (fun b : bool => b) (firstn (n - n_local) fs) = (n - n_local)%nat).
        { unfold countb. rewrite filter_all; [rewrite firstn_length; lia|]. intros b Hb. apply (In_nth _ _ false) in Hb. destruct Hb as [i [Hi <-]].
          rewrite firstn_length in Hi.
          assert (X : nth i (firstn (n - n_local) fs) false = nth i fs false).
          { rewrite <- (firstn_skipn (n - n_local) fs) at 2. rewrite app_nth1; auto. rewrite firstn_length; lia. }
          rewrite X. unfold fs. rewrite flags_nth by lia. cbn [plus].
          replace (existsb (Nat.eqb i) to_del) with false; [reflexivity|]. symmetry. apply existsb_nIn.
          intros H. apply Bd in H. lia. }
        lia.
      * intros i j Hi Hj Fi Fj. rewrite flags_nth in Fi, Fj by lia. cbn [plus] in Fi, Fj.
        apply Bool.negb_true_iff in Fi. apply Bool.negb_false_iff in Fj. apply existsb_nIn in Fi. apply existsb_In in Fj.
        unfold to_del in Fj. apply in_map_iff in Fj. destruct Fj as [b [Eb Hb]].
        assert (Ni : ~ In (i - (n - n_local))%nat idx).
        { intros H. apply Fi. unfold to_del. apply in_map_iff. exists (i - (n - n_local))%nat. split; [lia|auto]. }
        specialize (Sp b (i - (n - n_local))%nat Hb ltac:(lia) Ni). cbn beta in Sp.
        assert (X : forall k, (k < n_local)%nat -> nth k v 0%Q = nth (k + (n - n_local)) (t_obj t) 0%Q).
        { intros k Hk. unfold v, lastn. fold n. rewrite <- (firstn_skipn (n - n_local) (t_obj t)) at 2.
          rewrite app_nth2; rewrite firstn_length; [|fold n; lia]. f_equal. fold n. lia. }
        assert (Bb : (b < n_local)%nat) by (apply B in Hb; lia).
        rewrite !X in Sp by lia. rewrite Eb in Sp. replace (i - (n - n_local) + (n - n_local))%nat with i in Sp by lia. exact Sp.
  - apply Nat.ltb_ge in E. exists t, (repeat true n). split; [reflexivity|]. split; [apply repeat_length|].
    pose proof (kept_all n) as Id.
    split; [apply Id; auto|]. split; [apply Id; auto|]. split; [apply Id; auto|].
    split; [intros i Hi; rewrite (nth_indep _ false true) by (rewrite repeat_length; lia); apply nth_repeat|].
    split.
    + replace (skipn (n - n_local) (repeat true n)) with (repeat true n_local).
      * rewrite Nat.min_r by auto. unfold countb. clear. induction n_local as [|k IH]; cbn; auto.
      * replace n with ((n - n_local) + n_local)%nat at 2 by lia. rewrite repeat_app, skipn_app, repeat_length, Nat.sub_diag.
        rewrite skipn_all2 by (rewrite repeat_length; lia). reflexivity.
    + intros i j _ Hj _ Fj. rewrite (nth_indep _ false true) in Fj by (rewrite repeat_length; lia). rewrite nth_repeat in Fj. discriminate.
Qed.
Print Assumptions C32_local_pruning.

(** global pruning: exactly min(limit, number of nodes) nodes are kept, in all tables the
    same ones, and no removed node has a smaller objective than a kept one; without nodes
    the search stops with an exception *)
Theorem C32_global_pruning : forall (S T : Type) (t : tables_of S T) limit,
  let n := length (t_obj t) in
  length (t_ss t) = n -> length (t_num t) = n ->
  (forall x, In x (t_obj t) -> x < 6666)%Q ->
  (n = 0%nat -> exists e, global_pruning limit t = Err e) /\
  (n <> 0%nat -> exists t' fs, global_pruning limit t = Ok t' /\ length fs = n /\
    t_ss t' = kept_entries fs (t_ss t) /\ t_num t' = kept_entries fs (t_num t) /\ t_obj t' = kept_entries fs (t_obj t) /\
    length (t_obj t') = Nat.min limit n /\
    (forall i j, (i < n)%nat -> (j < n)%nat ->
       nth i fs false = true -> nth j fs false = false -> (nth i (t_obj t) 0 <= nth j (t_obj t) 0)%Q)).
Proof.
  intros S T t limit n L1 L2 Hs. split.
  { intros H. unfold global_pruning. destruct (t_obj t); [eauto|discriminate H]. }
  intros Hn.
  assert (GP : global_pruning limit t =
    if (limit <? length (t_obj t))%nat then
      do r <- mark argmin global_sentinel limit (t_obj t);
      let to_keep := map (fun x => Qeq_bool x global_sentinel) (snd r) in
      let to_del := map fst (filter (fun p => negb (snd p)) (combine (seq 0 (length to_keep)) to_keep)) in
      Ok {| t_ss := del_desc to_del (t_ss t); t_num := np_delete to_del (t_num t); t_obj := np_delete to_del (t_obj t) |}
    else Ok t).
  { unfold global_pruning. unfold n in Hn. destruct (t_obj t); [exfalso; apply Hn; reflexivity|reflexivity]. }
  rewrite GP. clear GP. fold n.
  destruct (limit <? n)%nat eqn:E.
  - apply Nat.ltb_lt in E.
    destruct (mark_spec _ _ min_ordering global_sentinel (t_obj t) limit) as [idx [w [Em [Li [N [B [Lw [W Sp]]]]]]]].
    + intros x Hx. apply Qltb_true. unfold global_sentinel. apply (Hs x Hx).
    + fold n; lia.
    + unfold argmin. rewrite Em. cbn [bind fst snd]. fold n in Lw, W, B, Sp.
      set (to_keep := map (fun x => Qeq_bool x global_sentinel) w).
      assert (Lk : length to_keep = n) by (unfold to_keep; rewrite map_length; auto).
      assert (K : forall i, (i < n)%nat -> nth i to_keep false = existsb (Nat.eqb i) idx).
      { intros i Hi. unfold to_keep. rewrite (nth_indep _ false (Qeq_bool 0%Q global_sentinel)) by (rewrite map_length; lia).
        rewrite (map_nth (fun x => Qeq_bool x global_sentinel)), W by auto.
        destruct (existsb (Nat.eqb i) idx); [reflexivity|].
        destruct (Qeq_bool (nth i (t_obj t) 0%Q) global_sentinel) eqn:F; auto.
        apply Qeq_bool_iff in F. specialize (Hs (nth i (t_obj t) 0%Q) ltac:(apply nth_In; fold n; auto)).
        unfold global_sentinel in F. lra. }
      set (to_del := map fst (filter (fun p => negb (snd p)) (combine (seq 0 (length to_keep)) to_keep))).
      assert (TD : to_del = filter (fun i => negb (nth i to_keep false)) (seq 0 n)).
      { unfold to_del. rewrite Lk. clear - Lk. rewrite <- Lk.
        assert (G : forall l s, map fst (filter (fun p => negb (snd p)) (combine (seq s (length l)) l))
                     = filter (fun i => negb (nth (i - s) l false)) (seq s (length l))).
        { induction l as [|b l IH]; intros s; [reflexivity|]. cbn [length seq combine filter snd].
          rewrite Nat.sub_diag. change (nth 0 (b :: l) false) with b.
          assert (R : filter (fun i => negb (nth (i - s) (b :: l) false)) (seq (Datatypes.S s) (length l)) =
                      filter (fun i => negb (nth (i - Datatypes.S s) l false)) (seq (Datatypes.S s) (length l))).
          { apply filter_ext_in. intros a Ha. apply in_seq in Ha. replace (a - s)%nat with (Datatypes.S (a - Datatypes.S s)) by lia. reflexivity. }
          rewrite R, <- IH. destruct b; reflexivity. }
        rewrite (G to_keep 0%nat). apply filter_ext. intros a. rewrite Nat.sub_0_r. reflexivity. }
      assert (Nd : NoDup to_del) by (rewrite TD; apply NoDup_filter, seq_NoDup).
      assert (InD : forall i, In i to_del <-> (i < n)%nat /\ ~ In i idx).
      { intros i. rewrite TD, filter_In, in_seq. split.
        - intros [H1 H2]. split; [lia|]. rewrite K in H2 by lia. apply Bool.negb_true_iff in H2. apply existsb_nIn; auto.
        - intros [H1 H2]. split; [lia|]. rewrite K by lia. apply Bool.negb_true_iff. apply existsb_nIn; auto. }
      exists {| t_ss := del_desc to_del (t_ss t); t_num := np_delete to_del (t_num t); t_obj := np_delete to_del (t_obj t) |}.
      exists (flags 0 n to_del). split; [reflexivity|]. cbn [t_ss t_num t_obj].
      split; [apply flags_length|].
      rewrite del_desc_keepf by auto. rewrite !np_delete_keepf, L1, L2. fold n.
      split; [reflexivity|]. split; [reflexivity|]. split; [reflexivity|]. split.
      * rewrite filter_fst_combine by (rewrite flags_length; reflexivity).
        assert (CS : (countb (fun b : bool => b) (flags 0 n to_del) + countb negb (flags 0 n to_del) = length (flags 0 n to_del))%nat)
          by exact (countb_split (fun b : bool => b) (flags 0 n to_del)).
        rewrite flags_count, flags_length in CS; [|auto|intros i Hi; apply InD in Hi; tauto].
        assert (C2 : (length to_del + length idx = n)%nat).
        { rewrite <- app_length. rewrite <- (seq_length n 0). apply Permutation_length. apply NoDup_Permutation.
          - apply NoDup_app_disj_gen; auto. intros x Hx. apply InD in Hx; tauto.
          - apply seq_NoDup.
          - intros x. rewrite in_app_iff, InD, in_seq. split.
            + intros [H|H]; [lia|]. apply B in H. lia.
            + intros H. destruct (in_dec Nat.eq_dec x idx); [auto|]. left; split; [lia|auto]. }
        assert (CI : countb id (flags 0 n to_del) = countb (fun b : bool => b) (flags 0 n to_del)) by reflexivity.
        rewrite CI. lia.
      * intros i j Hi Hj Fi Fj. rewrite flags_nth in Fi, Fj by lia. cbn [plus] in Fi, Fj.
        apply Bool.negb_true_iff in Fi. apply Bool.negb_false_iff in Fj. apply existsb_nIn in Fi. apply existsb_In in Fj.
        apply InD in Fj. apply Sp; try tauto.
        destruct (in_dec Nat.eq_dec i idx); auto. exfalso; apply Fi, InD; auto.
  - apply Nat.ltb_ge in E. exists t, (repeat true n). split; [reflexivity|]. split; [apply repeat_length|].
    pose proof (kept_all n) as Id.
    split; [apply Id; auto|]. split; [apply Id; auto|]. split; [apply Id; auto|]. split; [fold n; lia|].
    intros i j _ Hj _ Fj. rewrite (nth_indep _ false true) in Fj by (rewrite repeat_length; lia). rewrite nth_repeat in Fj. discriminate.
Qed.
Print Assumptions C32_global_pruning.

Example C32_example :
  let t := {| t_ss := [1; 2; 3; 4]; t_num := [10; 20; 30; 40]; t_obj := [5 # 1; 1 # 1; 3 # 1; 1 # 1]%Q |} in
  (exists t1, local_pruning false 3 2 t = Ok t1 /\ t_ss t1 = [1; 2; 4]) /\
  (exists t2, global_pruning 3 t = Ok t2 /\ t_ss t2 = [2; 3; 4]).
Proof. split; eexists; split; vm_compute; reflexivity. Qed.

(* ------------------------------------------------------------------ *)
(** ** C33 *)


(** when every layout yields a design and only the last one may reach a zero objective
    (no early stop), the returned design is one of those found, with the smallest objective *)
Theorem C33_best_of_complete_runs_partial : forall (D : Type) (void : D) (runs : list (Q * D)),
  runs <> [] -> (forall i, (S i < length runs)%nat -> ~ (fst (nth i runs (0%Q, void)) == 0)%Q) ->
  exists obj d, bella_optimiser void (map Some runs) = Ok (d, Some obj) /\ In (obj, d) runs /\
    (forall e, In e runs -> (obj <= fst e)%Q).
Proof.
  intros D void runs N H.
  assert (E : outer_loop (map Some runs) 0 (repeat None (length runs), repeat void (length runs)) =
              (map (fun e : Q * D => Some (fst e)) runs, map snd runs)).
  { destruct (exists_last N) as [l0 [[o d] ->]].
    assert (H0 : forall e, In e l0 -> ~ (fst e == 0)%Q).
    { intros e He. apply (In_nth _ _ (0%Q, void)) in He. destruct He as [j [Hj <-]].
      rewrite <- (app_nth1 _ [(o, d)] _ Hj). apply H. rewrite app_length; cbn; lia. }
    pose proof (loop_prefix void l0 [] [Some (o, d)] H0) as P. cbn [app map length] in P.
    rewrite map_app, app_length. cbn [map length].
    etransitivity; [exact P|]. cbn [outer_loop repeat fst snd].
    rewrite !map_app. cbn [map fst snd].
    assert (U1 : upd (length l0) (Some o) (map (fun e : Q * D => Some (fst e)) l0 ++ [None]) = map (fun e : Q * D => Some (fst e)) l0 ++ [Some o])
      by (rewrite <- (map_length (fun e : Q * D => Some (fst e)) l0) at 1; apply upd_app_mid).
    assert (U2 : upd (length l0) d (map snd l0 ++ [void]) = map snd l0 ++ [d])
      by (rewrite <- (map_length (@snd Q D) l0) at 1; apply upd_app_mid).
    rewrite U1, U2. destruct (Qeq_bool o 0); reflexivity. }
  unfold bella_optimiser. rewrite map_length, E. cbn [fst snd].
  set (objs := map (fun e : Q * D => Some (fst e)) runs).
  assert (V : values objs = map fst runs) by (unfold values, objs; rewrite map_map; reflexivity).
  assert (FN : first_nan objs = None).
  { unfold objs. clear. induction runs as [|r l IH]; cbn; [reflexivity|]. rewrite IH; reflexivity. }
  destruct (argmin_ok (map fst runs)) as [i [Ei [Li Mi]]]; [destruct runs; [congruence|discriminate]|].
  rewrite map_length in Li.
  assert (A : argmin_nan objs = Ok i).
  { unfold argmin_nan. rewrite FN, V, Ei. unfold objs. destruct runs; [congruence|reflexivity]. }
  rewrite A; cbn [bind].
  exists (fst (nth i runs (0%Q, void))), (snd (nth i runs (0%Q, void))). split; [|split].
  - unfold objs. change void with (snd (0%Q, void)) at 1. rewrite map_nth.
    rewrite (nth_indep _ None (Some (fst (0%Q, void)))) by (rewrite map_length; auto).
    rewrite (map_nth (fun e : Q * D => Some (fst e))). reflexivity.
  - rewrite <- surjective_pairing. apply nth_In; auto.
  - intros e He. apply (In_nth _ _ (0%Q, void)) in He. destruct He as [j [Hj <-]].
    rewrite map_length in Mi. specialize (Mi j Hj). change 0%Q with (fst (0%Q, void)) in Mi.
    rewrite !map_nth in Mi. exact Mi.
Qed.
Print Assumptions C33_best_of_complete_runs_partial.

(** otherwise a void design with an undefined objective is returned: when a layout had no
    solution before the loop ended ... *)
Theorem C33_void_result_when_a_layout_fails : forall (D : Type) (void : D) (before : list (Q * D)) (after : list (outcome D)),
  (forall e, In e before -> ~ (fst e == 0)%Q) ->
  bella_optimiser void (map Some before ++ None :: after) = Ok (void, None).
Proof.
  intros D void before after H. unfold bella_optimiser.
  pose proof (loop_prefix void before [] (None :: after) H) as E.
  cbn [app length map] in E.
  rewrite app_length, map_length. cbn [length].
  match type of E with _ = ?r => match goal with |- context [outer_loop ?l 0%nat ?t] => replace (outer_loop l 0 t) with r by (symmetry; exact E) end end.
  cbn [outer_loop repeat]. clear E.
  set (t := (map (fun e : Q * D => Some (fst e)) before ++ None :: repeat None (length after),
             map snd before ++ void :: repeat void (length after)) : results_tables D).
  destruct (loop_low after (S (length before)) t) as [A [B [C _]]].
  set (t' := outer_loop after (S (length before)) t) in *.
  assert (N1 : nth (length before) (fst t) None = None).
  { unfold t; cbn [fst]. rewrite app_nth2; rewrite map_length; [|lia]. rewrite Nat.sub_diag. reflexivity. }
  assert (N2 : nth (length before) (snd t) void = void).
  { unfold t; cbn [snd]. rewrite app_nth2; rewrite map_length; [|lia]. rewrite Nat.sub_diag. reflexivity. }
  assert (F : first_nan (fst t') = Some (length before)).
  { apply first_nan_at.
    - rewrite C. unfold t; cbn [fst]. rewrite app_length, map_length. cbn; lia.
    - rewrite A by lia. exact N1.
    - intros i Hi. rewrite A by lia. unfold t; cbn [fst]. rewrite app_nth1 by (rewrite map_length; auto).
      intros X. assert (I : In (@None Q) (map (fun e : Q * D => Some (fst e)) before)) by (rewrite <- X; apply nth_In; rewrite map_length; auto).
      apply in_map_iff in I. destruct I as [x [? _]]; discriminate. }
  rewrite (argmin_nan_at _ _ F). cbn [bind]. rewrite A, B, N1, N2 by lia. reflexivity.
Qed.
Print Assumptions C33_void_result_when_a_layout_fails.

(** ... and when a zero objective stopped the loop before the last layout *)
Theorem C33_void_result_after_early_stop : forall (D : Type) (void d : D) (before : list (Q * D)) (o : Q) (after : list (outcome D)),
  (forall e, In e before -> ~ (fst e == 0)%Q) -> (o == 0)%Q -> after <> [] ->
  bella_optimiser void (map Some before ++ Some (o, d) :: after) = Ok (void, None).
Proof.
  intros D void d before o after H Ho N. unfold bella_optimiser.
  pose proof (loop_prefix void before [] (Some (o, d) :: after) H) as E.
  cbn [app length map] in E.
  rewrite app_length, map_length. cbn [length].
  match type of E with _ = ?r => match goal with |- context [outer_loop ?l 0%nat ?t] => replace (outer_loop l 0 t) with r by (symmetry; exact E) end end.
  cbn [outer_loop repeat fst snd]. clear E.
  apply Qeq_bool_iff in Ho. rewrite Ho. cbn [fst snd].
  assert (U1 : forall r, upd (length before) (Some o) (map (fun e : Q * D => Some (fst e)) before ++ None :: r) = map (fun e : Q * D => Some (fst e)) before ++ Some o :: r)
    by (intros r; rewrite <- (map_length (fun e : Q * D => Some (fst e)) before) at 1; apply upd_app_mid).
  assert (U2 : forall r, upd (length before) d (map snd before ++ void :: r) = map snd before ++ d :: r)
    by (intros r; rewrite <- (map_length (@snd Q D) before) at 1; apply upd_app_mid).
  rewrite U1, U2. destruct after as [|a after]; [congruence|]. cbn [length repeat].
  set (objs := map (fun e : Q * D => Some (fst e)) before ++ Some o :: None :: repeat None (length after)).
  assert (F : first_nan objs = Some (S (length before))).
  { unfold objs. rewrite first_nan_app.
    - cbn [first_nan option_map]. rewrite map_length. f_equal; lia.
    - intros x Hx. apply in_map_iff in Hx. destruct Hx as [? [<- _]]; discriminate. }
  rewrite (argmin_nan_at _ _ F). cbn [bind]. f_equal. f_equal.
  - rewrite app_nth2; rewrite map_length; [|lia]. replace (S (length before) - length before)%nat with 1%nat by lia. reflexivity.
  - unfold objs. rewrite app_nth2; rewrite map_length; [|lia]. replace (S (length before) - length before)%nat with 1%nat by lia. reflexivity.
Qed.
Print Assumptions C33_void_result_after_early_stop.

(** so the property of the documentation does not hold of the code: two layouts, the first
    of them without solution, the second with a design *)
Theorem C33_refuted : ~ (forall (D : Type) (void : D) (runs : list (outcome D)) obj d,
  In (Some (obj, d)) runs ->
  exists obj' d', bella_optimiser void runs = Ok (d', Some obj') /\ In (Some (obj', d')) runs /\ (obj' <= obj)%Q).
Proof.
  intros H. specialize (H nat 0%nat [None; Some (1%Q, 5%nat)] 1%Q 5%nat ltac:(right; left; reflexivity)).
  destruct H as [o [d [E _]]]. vm_compute in E. discriminate E.
Qed.
Print Assumptions C33_refuted.

Example C33_example :
  bella_optimiser 0%nat [Some (3 # 2, 7%nat); Some (1 # 2, 8%nat); Some (0, 9%nat)]%Q = Ok (9%nat, Some 0%Q) /\
  bella_optimiser 0%nat [Some (3 # 2, 7%nat); Some (0, 9%nat); Some (1 # 2, 8%nat)]%Q = Ok (0%nat, None).
Proof. split; vm_compute; reflexivity. Qed.

(* ------------------------------------------------------------------ *)
(** ** C28 *)

(** with one place (the value used by the default parameters for the groups), the fallback
    layout is the best of all generated ones: no layout without penalty was generated and
    the time was over *)
Theorem C28_single_place_partial : forall (X : Type) (same : X -> X -> bool) (d : X) (penalty : X -> Q) (xs : list X),
  (forall x y, same x y = true -> penalty x == penalty y)%Q ->
  (forall x, In x xs -> ~ penalty x == 0)%Q -> xs <> [] ->
  exists z, layouts same d 1 (map (fun x => (penalty x, x)) xs) true = Ok [z] /\ In z xs /\
    (forall x, In x xs -> (penalty z <= penalty x)%Q).
Proof.
  intros X same d f xs Hs Hp N. destruct xs as [|y l]; [congruence|].
  destruct (generate_single same f Hs l y ltac:(intros; apply Hp; right; auto)) as [z [G [I M]]].
  exists z. split; [|split; auto]. unfold layouts. cbn [map generate].
  change (1 <=? length (st_perfect (@empty_store X)))%nat with false. cbv iota. unfold record. cbn [st_imperfect st_perfect empty_store].
  destruct (Qeq_bool (f y) 0) eqn:E0; [apply Qeq_bool_iff in E0; exfalso; apply (Hp y); auto; left; auto|].
  change (1 <=? length (@nil (Q * X)))%nat with false. cbv iota. cbn [existsb bind app].
  rewrite G. cbn [bind st_perfect st_imperfect length map fst snd fill Nat.sub]. change (argmin [f z]) with (@Ok nat 0%nat).
  reflexivity.
Qed.
Print Assumptions C28_single_place_partial.

(** every returned layout was generated; after the time limit exactly n are returned
    (possibly repeated); when n manufacturable layouts were found in time, these are
    returned and no two of them are equal *)
Theorem C28_returned_layouts : forall (X : Type) (same : X -> X -> bool) (d : X) n (events : list (Q * X)) timeout r,
  layouts same d n events timeout = Ok r ->
  (forall x, In x r -> exists p, In (p, x) events) /\
  (timeout = true -> length r = n) /\
  (timeout = false -> (forall x, In x r -> exists p, In (p, x) events /\ (p == 0)%Q) /\
     (forall i j, (i < j < length r)%nat -> same (nth j r d) (nth i r d) = false)).
Proof.
  intros X same d n events timeout r H. destruct (layouts_members same d n events timeout r H) as [A [B C]].
  split; [auto|]. split; [auto|]. intros T. destruct (C T) as [C1 C2]. split; [auto|].
  clear - C1. induction r as [|x r IH]; intros i j Hij; [cbn in Hij; lia|].
  destruct C1 as [C1 C2]. destruct j as [|j]; [lia|]. cbn [length] in Hij. destruct i as [|i]; cbn [nth].
  - apply C1. apply nth_In; lia.
  - apply IH; auto; lia.
Qed.
Print Assumptions C28_returned_layouts.

(** with several places the statement is false: the code overwrites the best stored
    layout (argmin) instead of the worst. Penalties 1, 2, 3/2: the layout of penalty 1 is lost *)
Theorem C28_refuted : ~ (forall (X : Type) (same : X -> X -> bool) (d : X) (penalty : X -> Q) n (xs : list X) r,
  (forall x y, same x y = true -> penalty x == penalty y)%Q ->
  (forall x, In x xs -> ~ penalty x == 0)%Q ->
  layouts same d n (map (fun x => (penalty x, x)) xs) true = Ok r ->
  forall x z, In x xs -> In z r -> ~ In x r -> (penalty z <= penalty x)%Q).
Proof.
  intros H.
  specialize (H Q Qeq_bool 0%Q (fun x => x) 2%nat [1; 2; 3 # 2]%Q [3 # 2; 2]%Q
    ltac:(intros x y E; apply Qeq_bool_iff; exact E)
    ltac:(intros x [<-|[<-|[<-|[]]]] E; vm_compute in E; discriminate E)
    ltac:(vm_compute; reflexivity) 1%Q 2%Q ltac:(left; reflexivity) ltac:(right; left; reflexivity)
    ltac:(intros [E|[E|[]]]; discriminate E)).
  vm_compute in H. apply H; reflexivity.
Qed.
Print Assumptions C28_refuted.

Example C28_example :
  layouts Qeq_bool 0%Q 1 (map (fun x => (x, x)) [2; 1; 3 # 2]%Q) true = Ok [1%Q] /\
  layouts Qeq_bool 0%Q 2 (map (fun x => (x, x)) [1; 2; 3 # 2]%Q) true = Ok [3 # 2; 2]%Q.
Proof. split; vm_compute; reflexivity. Qed.
