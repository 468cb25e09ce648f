(* Properties_laylabeam.v - C79: the beam search of the single-laminate optimiser. *)
From Coq Require Import Lqa.
From Verif Require Import Base Divers DiversProofs Constraints Guidelines SpecGuidelines GuidelinesProofs PdlTools GroupFilters Properties_filters Pruning Moments Search SearchProofs
  Properties_search Layla LaylaSearch.
Local Open Scope Z_scope.

Lemma bind_inv {A B} (x : result A) (f : A -> result B) r : bind x f = Ok r -> exists a, x = Ok a /\ f a = Ok r.
Proof. destruct x; cbn; [eauto|discriminate]. Qed.
Lemma guard_inv b e u : guard b e = Ok u -> b = false.
Proof. destruct b; [discriminate|auto]. Qed.

(* ------------------------------------------------------------------ *)
(** ** Specification: what a sequence of angles means *)

(** the angles chosen at the levels of the group of the given parity *)
Fixpoint every_other (take : bool) (h : list Z) : list Z :=
  match h with [] => [] | a :: r => if take then a :: every_other false r else every_other true r end.
(** the plies of the group from the bottom: all the angles for a symmetric laminate; for an
    asymmetric one every other angle goes to the bottom part, the others to the top part, inwards *)
Definition bottom_of (sym : bool) (h : list Z) : list Z := if sym then h else every_other true h.
Definition top_of (sym : bool) (h : list Z) : list Z := if sym then [] else rev (every_other false h).

(** the contribution of the plies [h] at the levels [ls] to a lamination parameter *)
Fixpoint contribution (rows : list (Z -> lampam)) (ls : list nat) (h : list Z) (q : nat) : Q :=
  match ls, h with
  | l :: ls', a :: h' => (nth l rows (fun _ => lampam_zero) a q + contribution rows ls' h' q)%Q
  | _, _ => 0%Q
  end.

(** the number of plies of [h] of the j-th angle of the set, the last ply counting for half when
    it is the middle ply *)
Definition is_angle (c : cons) (j : nat) (a : Z) : bool :=
  match ind_angle (set_of_angles c) a with Some k => Nat.eqb k j | None => false end.
Definition weight_of (c : cons) (j : nat) (a : Z) : Q := if is_angle c j a then 1%Q else 0%Q.
Definition plies_of (c : cons) (half : bool) (gs : nat) (h : list Z) (j : nat) : Q :=
  (sumQ (map (weight_of c j) h) - (if (half && Nat.eqb (length h) gs)%bool then weight_of c j (last h 0%Z) / 2 else 0))%Q.

(** every angle of [h] was left by the pruning for the plies chosen before it *)
Definition choice (pb : lproblem) (ss_bot ss_top : list Z) (level : nat) (h : list Z) (a : Z) : Prop :=
  let c := l_cons pb in
  exists angs, l_pruning c (l_n pb) level (simp_bot c ss_bot) (bottom_of (sym c) h) (simp_top c ss_top) (top_of (sym c) h) (set_of_angles c) = Ok (Some angs) /\
    In a angs /\ ind_angle (set_of_angles c) a <> None.
Inductive path (pb : lproblem) (ss_bot ss_top : list Z) (levels : list nat) : list Z -> Prop :=
| path_nil : path pb ss_bot ss_top levels []
| path_snoc h a : path pb ss_bot ss_top levels h -> (length h < length levels)%nat ->
    choice pb ss_bot ss_top (nth (length h) levels 0%nat) h a -> path pb ss_bot ss_top levels (h ++ [a]).

(** the full laminate of the last group *)
Definition laminate (sym : bool) (n : nat) (ss_bot ss_top h : list Z) : list Z :=
  if sym then let half := ss_bot ++ h in half ++ rev (firstn (n - length half) half)
  else ss_bot ++ bottom_of false h ++ top_of false h ++ ss_top.

(* ------------------------------------------------------------------ *)
Lemma every_other_snoc : forall h b a, every_other b (h ++ [a]) = every_other b h ++ (if Bool.eqb b (Nat.even (length h)) then [a] else []).
Proof.
  induction h as [|x h IH]; intros b a; [destruct b; reflexivity|]. cbn [app every_other length].
  rewrite Nat.even_succ, <- Nat.negb_even. destruct b; rewrite IH; destruct (Nat.even (length h)); reflexivity.
Qed.

Lemma contribution_snoc rows q : forall ls h l a, length h = length ls ->
  (contribution rows (ls ++ [l]) (h ++ [a]) q == contribution rows ls h q + nth l rows (fun _ => lampam_zero) a q)%Q.
Proof.
  induction ls as [|x ls IH]; intros [|y h] l a H; try discriminate; cbn [app contribution]; [ring|].
  rewrite IH by (cbn in H; lia). ring.
Qed.

Lemma kept_app {A} fs (l m : list A) : (length l <= length fs)%nat ->
  (forall i, (i < length l)%nat -> nth i fs false = true) ->
  kept_entries fs (l ++ m) = l ++ kept_entries (skipn (length l) fs) m.
Proof.
  revert fs; induction l as [|x l IH]; intros fs L H; [reflexivity|].
  destruct fs as [|b fs]; [cbn in L; lia|].
  pose proof (H 0%nat ltac:(cbn; lia)) as H0; cbn in H0; subst b.
  unfold kept_entries; cbn [app length skipn List.combine filter fst map snd]. f_equal.
  apply IH; [cbn in L; lia|]. intros i Hi; exact (H (S i) ltac:(cbn; lia)).
Qed.
Lemma kept_map {A B} (f : A -> B) fs : forall l, kept_entries fs (map f l) = map f (kept_entries fs l).
Proof.
  unfold kept_entries; induction fs as [|b fs IH]; intros [|x l]; cbn; auto. destruct b; cbn; [f_equal|]; apply IH.
Qed.
Lemma kept_In {A} fs (l : list A) x : In x (kept_entries fs l) -> In x l.
Proof.
  unfold kept_entries; intros H; apply in_map_iff in H; destruct H as [[b y] [<- H]].
  apply filter_In in H; destruct H as [H _]; apply in_combine_r in H; exact H.
Qed.

Section PROOFS.
Variable pb : lproblem.
Variables (last_group : bool) (middle_ply group_size : nat) (ss_bot ss_top : list Z) (levels : list nat).
Variables (lp0 : lampam) (counts0 : list Q).
Notation c := (l_cons pb).
Notation half := (negb (Nat.eqb middle_ply 0)).
Notation goodpath := (path pb ss_bot ss_top levels).

(** a node whose angles are [h], before the repair *)
Definition node_of (h : list Z) (nd : lnode) : Prop :=
  goodpath h /\ ln_bot nd = bottom_of (sym c) h /\ ln_top nd = top_of (sym c) h /\
  length (ln_counts nd) = length counts0 /\
  (forall j, (j < length counts0)%nat -> nth j (ln_counts nd) 0 == nth j counts0 0 + plies_of c half group_size h j)%Q.
Definition lampam_of_path (h : list Z) (nd : lnode) : Prop :=
  forall q, (ln_lampam nd q == lp0 q + contribution (l_rows pb) (firstn (length h) levels) h q)%Q.
Definition same_ss (a b : lnode) : Prop := ln_bot a = ln_bot b /\ ln_top a = ln_top b /\ ln_counts a = ln_counts b.
Lemma node_of_same h a b : same_ss a b -> node_of h a -> node_of h b.
Proof. intros [E1 [E2 E3]] [H1 [H2 [H3 [H4 H5]]]]. unfold node_of. rewrite <- E1, <- E2, <- E3. auto. Qed.

Lemma plies_snoc h a j : (length h < group_size)%nat ->
  (plies_of c half group_size (h ++ [a]) j == plies_of c half group_size h j +
    (if is_angle c j a then if (half && Nat.eqb (S (length h)) group_size)%bool then 1 # 2 else 1 else 0))%Q.
Proof.
  intros L. unfold plies_of. rewrite map_app, app_length, last_last. cbn [map length].
  assert (S1 : forall l m, (sumQ (l ++ m) == sumQ l + sumQ m)%Q).
  { induction l as [|x l IH]; intros m; [change (sumQ ([] ++ m)) with (sumQ m); change (sumQ []) with 0%Q; ring|]. change (sumQ ((x :: l) ++ m)) with (x + sumQ (l ++ m))%Q. change (sumQ (x :: l)) with (x + sumQ l)%Q. rewrite IH. ring. }
  rewrite S1. change (sumQ [weight_of c j a]) with (weight_of c j a + 0)%Q.
  destruct (Nat.eqb_spec (length h) group_size); [lia|]. rewrite andb_false_r.
  replace (length h + 1)%nat with (S (length h)) by lia. assert (W : weight_of c j a = if is_angle c j a then 1%Q else 0%Q) by reflexivity. rewrite !W.
  destruct (half && Nat.eqb (S (length h)) group_size)%bool, (is_angle c j a); field.
Qed.

Lemma count_spec hf a ct j : (j < length ct)%nat ->
  (nth j (l_count pb hf a ct) 0 == nth j ct 0 + (if is_angle c j a then if hf then 1 # 2 else 1 else 0))%Q.
Proof.
  intros Hj. unfold l_count, is_angle. destruct (ind_angle (set_of_angles c) a) as [k|]; [|ring]. rewrite nth_upd.
  destruct (Nat.eqb_spec k j) as [->|N]; [destruct (Nat.ltb_spec j (length ct)); [|lia]; cbn [andb]; reflexivity|].
  cbn [andb]. ring.
Qed.
Lemma count_length hf a ct : length (l_count pb hf a ct) = length ct.
Proof. unfold l_count. destruct (ind_angle _ _); [apply upd_length|reflexivity]. Qed.

(** the child of a node *)
Lemma child_of local row h nd a : length h = local -> (local < group_size)%nat -> (local < length levels)%nat ->
  nth (nth local levels 0%nat) (l_rows pb) (fun _ => lampam_zero) = row ->
  choice pb ss_bot ss_top (nth local levels 0%nat) h a ->
  node_of h nd -> lampam_of_path h nd ->
  node_of (h ++ [a]) (l_child pb middle_ply group_size local row nd a) /\ lampam_of_path (h ++ [a]) (l_child pb middle_ply group_size local row nd a).
Proof.
  intros Hl Hg Hlv Hr Hc [P [B [T [L C]]]] Lp. unfold l_child. split.
  - split; [apply path_snoc; auto; rewrite Hl; auto|]. cbn [ln_bot ln_top ln_counts].
    split; [|split; [|split]].
    + unfold bottom_of in *. destruct (sym c); cbn [negb andb]; [rewrite B; reflexivity|].
      rewrite every_other_snoc, Hl, <- Nat.negb_even, B. destruct (Nat.even local); cbn [negb Bool.eqb]; [reflexivity|rewrite app_nil_r; reflexivity].
    + unfold top_of in *. destruct (sym c); cbn [negb andb]; [exact T|].
      rewrite every_other_snoc, Hl, <- Nat.negb_even, T. destruct (Nat.even local); cbn [negb Bool.eqb]; [rewrite app_nil_r; reflexivity|rewrite rev_app_distr; reflexivity].
    + rewrite count_length. exact L.
    + intros j Hj. rewrite count_spec by lia. rewrite C by auto. rewrite plies_snoc by lia. rewrite Hl. ring.
  - intros q. cbn [ln_lampam]. unfold lampam_add. rewrite (Lp q). rewrite app_length, Nat.add_1_r, Hl.
    assert (F : firstn (S local) levels = firstn local levels ++ [nth local levels 0%nat]).
    { clear -Hlv. revert local Hlv. induction levels as [|x l IH]; intros [|k] H; cbn in *; try lia; auto. f_equal. apply IH. lia. }
    rewrite F, contribution_snoc by (rewrite firstn_length; lia). rewrite Hr. ring.
Qed.

(** the leaf of the last group: repaired *)
Definition repaired (h : list Z) (nd : lnode) : Prop :=
  let ss := l_full pb middle_ply ss_bot ss_top nd in
  length ss = l_n pb /\ exists r ok, l_repair pb ss = Ok (r, ok) /\ ln_final nd = r /\ ln_ok nd = ok /\
    (if ok then l_gate pb r = Ok tt /\ ln_lampam nd = l_lampam_of pb r else lampam_of_path h nd).
Definition at_end (k : nat) : bool := (last_group && Nat.eqb k group_size)%bool.
Definition sound (h : list Z) (nd : lnode) : Prop :=
  node_of h nd /\ if at_end (length h) then repaired h nd else lampam_of_path h nd.
(** the unconstrained objective of a node *)
Definition estimate_of (level : nat) (h : list Z) (nd : lnode) : Q :=
  if (at_end (length h) && negb (ln_ok nd))%bool then (10000000000 # 1)%Q else l_objective pb level (ln_lampam nd).

Lemma estimate_spec local level h nd p : length h = S local -> node_of h nd -> lampam_of_path h nd ->
  l_estimate pb last_group middle_ply group_size ss_bot ss_top local level nd = Ok p ->
  sound h (fst p) /\ snd p = estimate_of level h (fst p) /\ same_ss nd (fst p).
Proof.
  intros Hl N L. unfold l_estimate, sound, estimate_of, at_end. rewrite Hl. destruct (last_group && Nat.eqb (S local) group_size)%bool.
  - intros H. apply bind_inv in H as [u [G H]]. apply guard_inv, negb_false_iff, Nat.eqb_eq in G. apply bind_inv in H as [[r ok] [R H]]. cbn [fst snd] in H.
    destruct ok; [apply bind_inv in H as [u2 [Gt H]]; destruct u2|]; injection H as <-; cbn [fst snd ln_ok negb andb]; (split; [split|split; [reflexivity|repeat split]]).
    + eapply node_of_same; [|exact N]. repeat split.
    + split; [exact G|]. exists r, true. repeat split; auto.
    + eapply node_of_same; [|exact N]. repeat split.
    + split; [exact G|]. exists r, false. repeat split; auto.
  - intros H. injection H as <-. cbn [fst snd]. split; [split; auto|split; [reflexivity|repeat split]].
Qed.

(** the children of a node: one for every angle left by the pruning, the last one first *)
Lemma children_spec local level h nd kids : length h = local -> (local < group_size)%nat -> (local < length levels)%nat -> level = nth local levels 0%nat ->
  node_of h nd -> lampam_of_path h nd ->
  l_children pb last_group middle_ply group_size ss_bot ss_top local level nd = Ok kids ->
  exists angs, (angs = [] \/ l_pruning c (l_n pb) level (simp_bot c ss_bot) (ln_bot nd) (simp_top c ss_top) (ln_top nd) (set_of_angles c) = Ok (Some angs)) /\
    (forall a, In a angs -> ind_angle (set_of_angles c) a <> None) /\
    Forall2 (fun a kid => sound (h ++ [a]) kid /\ ln_obj kid = calc_obj_multi_ss (estimate_of level (h ++ [a]) kid)
        (if Nat.eqb (S local) group_size then l_pen_10 pb (ln_counts kid) else 0%Q)
        (l_max (l_pen_bal pb level (ln_counts (last kids nd))) (l_pen_ipo pb level (ln_lampam kid)))
        (l_pen_oopo pb level (ln_lampam kid)) (l_c10 pb) (l_cbal pb) (l_coopo pb)) (rev angs) kids /\
    (angs = [] -> l_pruning c (l_n pb) level (simp_bot c ss_bot) (ln_bot nd) (simp_top c ss_top) (ln_top nd) (set_of_angles c) = Ok None \/
                  l_pruning c (l_n pb) level (simp_bot c ss_bot) (ln_bot nd) (simp_top c ss_top) (ln_top nd) (set_of_angles c) = Ok (Some [])).
Proof.
  intros Hl Hg Hlv Elv N L H. unfold l_children in H. apply bind_inv in H as [r [P H]].
  destruct r as [angs|].
  2:{ injection H as <-. exists []. split; [now left|]. split; [intros a []|]. split; [constructor|]. intros _. left. exact P. }
  apply bind_inv in H as [u [G H]]. apply guard_inv in G. apply bind_inv in H as [row [R H]]. apply bind_inv in H as [est [E H]]. injection H as <-.
  exists angs. split; [right; exact P|].
  assert (K : forall a, In a angs -> ind_angle (set_of_angles c) a <> None).
  { intros a Ha Q. assert (existsb (fun a => match ind_angle (set_of_angles c) a with Some _ => false | None => true end) angs = true) as T; [|congruence].
    apply existsb_exists. exists a. split; [exact Ha|]. rewrite Q. reflexivity. }
  split; [exact K|]. split; [|intros ->; right; exact P].
  assert (Rw : nth level (l_rows pb) (fun _ => lampam_zero) = row).
  { destruct (Nat.lt_ge_cases level (length (l_rows pb))) as [Q|Q].
    - rewrite (get_ok _ _ (fun _ => lampam_zero) Q) in R. injection R as <-. reflexivity.
    - exfalso. unfold get, py_get, zlen in R. destruct (Z.leb_spec 0 (Z.of_nat level)); [|lia].
      destruct (Z.ltb_spec (Z.of_nat level) (Z.of_nat (length (l_rows pb)))); [lia|discriminate]. }
  apply mapM_inv in E. set (kids := map (l_child pb middle_ply group_size local row nd) (rev angs)) in *.
  assert (F : Forall2 (fun a p => sound (h ++ [a]) (fst p) /\ snd p = estimate_of level (h ++ [a]) (fst p) /\
      same_ss (l_child pb middle_ply group_size local row nd a) (fst p)) (rev angs) est).
  { assert (KI : forall a, In a (rev angs) -> In a angs) by (intros a Ha; apply in_rev; exact Ha). unfold kids in E. clear kids. revert KI est E.
    induction (rev angs) as [|a l IH]; intros KI est E; inversion E; subst; constructor.
    - destruct (child_of (length h) (nth (nth (length h) levels 0%nat) (l_rows pb) (fun _ => lampam_zero)) h nd a) as [N1 L1]; auto.
      { exists angs. split; [|split; [apply KI; now left|apply K, KI; now left]]. destruct N as [_ [<- [<- _]]]. exact P. }
      apply (estimate_spec (length h) (nth (length h) levels 0%nat)); auto. rewrite app_length. cbn. lia.
    - apply IH; auto. intros b Hb. apply KI. now right. }
  (* the ply counts of the last child *)
  assert (LastC : ln_counts (last (map (l_score pb group_size local level (ln_counts (last kids nd))) est) nd) = ln_counts (last kids nd)).
  { assert (F' : Forall2 (fun k p => ln_counts k = ln_counts (fst p)) kids est).
    { unfold kids. clear -F. induction F as [|a p la lp [_ [_ [_ [_ Hc]]]] F IH]; cbn [map]; constructor; auto. }
    generalize (ln_counts (last kids nd)) at 1. intros cc. clear -F'. revert F'. generalize kids. clear kids.
    intros kids F. induction F as [|k p ks es Hkp F IH]; [reflexivity|]. destruct F as [|k2 p2 ks es Hkp2 F]; [cbn; symmetry; exact Hkp|]. exact IH. }
  clear E.
  assert (G2 : forall cc cc' : list Q, cc' = cc -> Forall2 (fun a kid => sound (h ++ [a]) kid /\ ln_obj kid = calc_obj_multi_ss (estimate_of level (h ++ [a]) kid)
        (if Nat.eqb (S local) group_size then l_pen_10 pb (ln_counts kid) else 0%Q)
        (l_max (l_pen_bal pb level cc') (l_pen_ipo pb level (ln_lampam kid)))
        (l_pen_oopo pb level (ln_lampam kid)) (l_c10 pb) (l_cbal pb) (l_coopo pb)) (rev angs) (map (l_score pb group_size local level cc) est)).
  { intros cc cc' ->. clear -F. induction F as [|a p la lp [H1 [H2 H3]] F IH]; cbn [map]; constructor; auto.
    unfold l_score. split; [|cbn [ln_obj ln_counts ln_lampam]; rewrite H2; reflexivity].
    destruct H1 as [N1 R1]. split; [eapply node_of_same; [|exact N1]; repeat split|].
    destruct (at_end _); [|exact R1]. exact R1. }
  apply G2. exact LastC.
Qed.

(** ** The objective of a node, and the balance penalty of a sibling *)
Definition first_choice (level : nat) (h : list Z) (a : Z) : Prop :=
  exists rest, l_pruning c (l_n pb) level (simp_bot c ss_bot) (bottom_of (sym c) h) (simp_top c ss_top) (top_of (sym c) h) (set_of_angles c) = Ok (Some (a :: rest)).
Definition scored (h : list Z) (nd : lnode) : Prop :=
  exists g a a' kid, h = g ++ [a] /\ first_choice (nth (length g) levels 0%nat) g a' /\ node_of (g ++ [a']) kid /\
    let level := nth (length g) levels 0%nat in
    ln_obj nd = calc_obj_multi_ss (estimate_of level h nd)
        (if Nat.eqb (length h) group_size then l_pen_10 pb (ln_counts nd) else 0%Q)
        (l_max (l_pen_bal pb level (ln_counts kid)) (l_pen_ipo pb level (ln_lampam nd)))
        (l_pen_oopo pb level (ln_lampam nd)) (l_c10 pb) (l_cbal pb) (l_coopo pb).
(** the angles of the nodes of a level *)
Definition at_level (k : nat) (nd : lnode) : Prop :=
  exists h, length h = k /\ sound h nd /\ (k <> 0%nat -> scored h nd).

Lemma Forall2_last {A B} (P : A -> B -> Prop) l m (a : A) (b : B) : Forall2 P l m -> l <> [] -> P (last l a) (last m b).
Proof. intros F. induction F as [|x y l m H F IH]; [congruence|]. intros _. destruct F; [exact H|]. apply IH. discriminate. Qed.
Lemma last_rev_cons {A} (a : A) l d : last (rev (a :: l)) d = a.
Proof. cbn [rev]. apply last_last. Qed.

Lemma children_level local nd kids : (local < group_size)%nat -> (local < length levels)%nat -> at_level local nd ->
  l_children pb last_group middle_ply group_size ss_bot ss_top local (nth local levels 0%nat) nd = Ok kids -> forall k, In k kids -> at_level (S local) k.
Proof.
  intros Hg Hlv [h [Hl [[N L] _]]] E k Hk.
  assert (At : at_end (length h) = false) by (unfold at_end; rewrite Hl; destruct (Nat.eqb_spec local group_size); [lia|apply andb_false_r]).
  rewrite At in L. destruct (children_spec local _ h nd kids Hl Hg Hlv eq_refl N L E) as [angs [P [K [F _]]]].
  destruct angs as [|a0 rest]; [inversion F; subst; destruct Hk|]. destruct P as [P|P]; [discriminate|].
  assert (F0 := F).
  pose proof (Forall2_last _ _ _ 0 nd F ltac:(intros Q; apply (f_equal (@length Z)) in Q; rewrite rev_length in Q; discriminate)) as [Slast _].
  rewrite last_rev_cons in Slast. destruct Slast as [Slast _].
  assert (X : exists a, sound (h ++ [a]) k /\ ln_obj k = calc_obj_multi_ss (estimate_of (nth local levels 0%nat) (h ++ [a]) k)
        (if Nat.eqb (S local) group_size then l_pen_10 pb (ln_counts k) else 0%Q)
        (l_max (l_pen_bal pb (nth local levels 0%nat) (ln_counts (last kids nd))) (l_pen_ipo pb (nth local levels 0%nat) (ln_lampam k)))
        (l_pen_oopo pb (nth local levels 0%nat) (ln_lampam k)) (l_c10 pb) (l_cbal pb) (l_coopo pb)).
  { clear F0. clear -F Hk. revert F Hk. generalize (ln_counts (last kids nd)). intros cc F. induction F as [|a x la lx Hax F IH]; intros []; [subst; exists a; exact Hax|auto]. }
  destruct X as [a [Sk Ok_]]. exists (h ++ [a]). split; [rewrite app_length; cbn; lia|]. split; [exact Sk|]. intros _.
  exists h, a, a0, (last kids nd). split; [reflexivity|]. rewrite Hl. split; [|split; [exact Slast|]].
  - exists rest. destruct N as [_ [<- [<- _]]]. exact P.
  - cbv zeta. rewrite app_length, Hl, Nat.add_1_r. exact Ok_.
Qed.

(** ** Pruning keeps a part of the nodes *)
Lemma l_local_pruning_sub local pre kids out :
  l_local_pruning pb last_group group_size local (length kids) (pre ++ kids) = Ok out ->
  exists fs, out = pre ++ kept_entries fs kids /\ length fs = length kids.
Proof.
  unfold l_local_pruning. set (limit := if (last_group && _)%bool then _ else _).
  destruct (negb (Nat.eqb (S local) group_size) && (limit <? length kids)%nat)%bool.
  2:{ intros [= <-]. exists (repeat true (length kids)). rewrite <- kept_all by reflexivity. split; [reflexivity|apply repeat_length]. }
  intros H. apply bind_inv in H as [r [M H]]. injection H as <-. rewrite np_delete_keepf.
  replace (length (pre ++ kids) - length kids)%nat with (length pre) by (rewrite app_length; lia).
  set (idx := map _ _). exists (skipn (length pre) (flags 0 (length (pre ++ kids)) idx)).
  split; [|rewrite skipn_length, flags_length, app_length; lia].
  apply kept_app; [rewrite flags_length, app_length; lia|]. intros i Hi. rewrite flags_nth by (rewrite app_length; lia). cbn [Nat.add].
  apply negb_true_iff, existsb_nIn. unfold idx. intros X. apply in_map_iff in X as [j [Hj _]]. lia.
Qed.
Lemma l_keep_best_sub limit nodes out : l_keep_best limit nodes = Ok out -> exists fs, out = kept_entries fs nodes /\ length fs = length nodes.
Proof.
  unfold l_keep_best. destruct (limit <? length nodes)%nat.
  2:{ intros [= <-]. exists (repeat true (length nodes)). rewrite <- kept_all by reflexivity. split; [reflexivity|apply repeat_length]. }
  intros H. apply bind_inv in H as [r [M H]]. cbv zeta in H. injection H as <-. rewrite np_delete_keepf.
  eexists. split; [reflexivity|apply flags_length].
Qed.
Lemma l_global_sub local nodes out : l_global_pruning pb last_group group_size local nodes = Ok out -> forall x, In x out -> In x nodes.
Proof.
  unfold l_global_pruning. intros H x Hx. destruct nodes as [|n0 nodes]; [discriminate|].
  destruct (last_group && Nat.eqb (S (S local)) group_size)%bool; [|destruct (negb (Nat.eqb (S local) group_size))].
  - apply l_keep_best_sub in H as [fs [-> _]]. apply kept_In in Hx. exact Hx.
  - apply l_keep_best_sub in H as [fs [-> _]]. apply kept_In in Hx. exact Hx.
  - injection H as <-. exact Hx.
Qed.

Lemma l_expand_level local : (local < group_size)%nat -> (local < length levels)%nat ->
  forall olds news out, (forall x, In x olds -> at_level local x) -> (forall x, In x news -> at_level (S local) x) ->
  l_expand pb last_group middle_ply group_size ss_bot ss_top local (nth local levels 0%nat) (length olds) (olds ++ news) = Ok out ->
  forall x, In x out -> at_level (S local) x.
Proof.
  intros Hg Hlv. induction olds as [|nd olds IH]; intros news out Ho Hn E; [cbn in E; injection E as <-; exact Hn|].
  cbn [length app l_expand] in E. apply bind_inv in E as [kids [K E]]. apply bind_inv in E as [nodes [P E]].
  assert (X : exists kids', nodes = olds ++ (news ++ kids') /\ forall k, In k kids' -> In k kids).
  { destruct kids as [|k0 kids]; [injection P as <-; exists []; rewrite app_nil_r; split; [reflexivity|intros k []]|].
    apply l_local_pruning_sub in P as [fs [-> _]]. rewrite <- app_assoc. eexists. split; [reflexivity|]. intros k Hk. apply kept_In in Hk. exact Hk. }
  destruct X as [kids' [-> Hk']]. apply (IH (news ++ kids') out); auto.
  - intros x Hx. apply Ho. now right.
  - intros x Hx. apply in_app_or in Hx as [Hx|Hx]; [auto|]. eapply children_level; eauto. apply Ho. now left.
Qed.

Lemma get_bound {A} (l : list A) k x : get l (Z.of_nat k) = Ok x -> (k < length l)%nat /\ forall d, x = nth k l d.
Proof.
  intros H. assert (B : (k < length l)%nat).
  { destruct (Nat.lt_ge_cases k (length l)) as [Q|Q]; [exact Q|]. exfalso. unfold get, py_get, zlen in H. destruct (Z.leb_spec 0 (Z.of_nat k)); [|lia].
    destruct (Z.ltb_spec (Z.of_nat k) (Z.of_nat (length l))); [lia|discriminate]. }
  split; [exact B|]. intros d. rewrite (get_ok _ _ d B) in H. injection H as <-. reflexivity.
Qed.

Lemma l_levels_level : forall k local nodes out, (local + k <= group_size)%nat -> (forall x, In x nodes -> at_level local x) ->
  l_levels pb last_group middle_ply group_size ss_bot ss_top levels k local nodes = Ok out -> forall x, In x out -> at_level (local + k) x.
Proof.
  induction k as [|k IH]; intros local nodes out B H E; cbn [l_levels] in E; [injection E as <-; rewrite Nat.add_0_r; exact H|].
  apply bind_inv in E as [level [G E]]. destruct (get_bound _ _ _ G) as [Bl El]. rewrite (El 0%nat) in E. clear El G level.
  apply bind_inv in E as [nodes1 [X E]]. apply bind_inv in E as [nodes2 [Gp E]].
  replace (local + S k)%nat with (S local + k)%nat by lia. apply (IH (S local) nodes2 out); [lia| |exact E].
  intros x Hx. apply (l_global_sub _ _ _ Gp) in Hx. assert (X' : l_expand pb last_group middle_ply group_size ss_bot ss_top local (nth local levels 0%nat) (length nodes) (nodes ++ []) = Ok nodes1) by (rewrite app_nil_r; exact X).
  apply (l_expand_level local ltac:(lia) Bl nodes [] nodes1 H ltac:(intros y []) X' x Hx).
Qed.

(** ** Without pruning every admissible sequence of angles is reached *)
Definition branching : nat := Nat.max 2 (length (set_of_angles c)).
Lemma filterR_len {A} (f : A -> result bool) : forall l r, filterR f l = Ok r -> (length r <= length l)%nat.
Proof.
  induction l as [|a l IH]; intros r H; cbn [filterR] in H; [injection H as <-; auto|].
  apply bind_inv in H as [b [_ H]]. apply bind_inv in H as [r' [R H]]. injection H as <-. apply IH in R. destruct b; cbn [length]; lia.
Qed.
Lemma filter_len {A} (f : A -> bool) l : (length (filter f l) <= length l)%nat.
Proof. induction l as [|a l IH]; cbn; [lia|]. destruct (f a); cbn; lia. Qed.
Lemma l_pruning_len n level sb bot st top child l : l_pruning c n level sb bot st top child = Ok (Some l) -> (length l <= Nat.max 2 (length child))%nat.
Proof.
  unfold l_pruning. set (ch := if (sym c && Nat.odd n && Nat.eqb level (n / 2))%bool then _ else _).
  assert (Lc : (length ch <= Nat.max 2 (length child))%nat) by (unfold ch; destruct ((sym c && _ && _)%bool); cbn [length]; lia).
  clearbody ch. cbv zeta.
  assert (N : forall m r, none_if_empty m = Some r -> (length m <= length ch)%nat -> (length r <= Nat.max 2 (length child))%nat).
  { intros m r. destruct m; cbn [none_if_empty]; [discriminate|]. intros [= <-]. lia. }
  destruct (dam_tol c && (_ || _))%bool; [intros H; injection H as H; eapply N; [exact H|apply filter_len]|].
  destruct (dam_tol c && _ && Nat.eqb level 1)%bool; [intros H; apply bind_inv in H as [r [R H]]; injection H as H; eapply N; [exact H|eapply filterR_len; exact R]|].
  destruct (dam_tol c && _ && Nat.eqb (S (S level)) n && _)%bool; [intros H; apply bind_inv in H as [r [R H]]; injection H as H; eapply N; [exact H|eapply filterR_len; exact R]|].
  intros H. apply bind_inv in H as [d [D H]].
  assert (Ld : (length d <= length ch)%nat).
  { destruct (diso c); [|injection D as <-; lia]. unfold l_prune_diso in D.
    set (ch2 := if (sym c || Nat.odd level)%bool then _ else _) in D.
    assert (L2 : (length ch2 <= length ch)%nat).
    { unfold ch2, filter_diso. destruct (sym c || Nat.odd level)%bool; [destruct bot|destruct top]; match goal with |- context [match ?o with Some _ => _ | None => _ end] => destruct o end; try apply filter_len; lia. }
    destruct (negb (sym c) && _)%bool; [apply filterR_len in D; lia|injection D as <-; exact L2]. }
  destruct (diso c && _)%bool; [discriminate|]. apply bind_inv in H as [e [E H]].
  assert (Le : (length e <= length d)%nat).
  { destruct (contig c); [|injection E as <-; lia]. unfold l_prune_contig in E.
    destruct (negb _); [apply filterR_len in E; exact E|]. destruct (sym c); apply filterR_len in E; exact E. }
  destruct (contig c && _)%bool; [discriminate|]. injection H as <-. lia.
Qed.

Lemma children_len local nd kids : (local < group_size)%nat -> (local < length levels)%nat -> at_level local nd ->
  l_children pb last_group middle_ply group_size ss_bot ss_top local (nth local levels 0%nat) nd = Ok kids -> (length kids <= branching)%nat.
Proof.
  intros Hg Hlv [h [Hl [[N L] _]]] E.
  assert (At : at_end (length h) = false) by (unfold at_end; rewrite Hl; destruct (Nat.eqb_spec local group_size); [lia|apply andb_false_r]).
  rewrite At in L. destruct (children_spec local _ h nd kids Hl Hg Hlv eq_refl N L E) as [angs [P [K [F _]]]].
  assert (Len : length kids = length angs).
  { rewrite <- (rev_length angs). clear -F. induction F; cbn; congruence. }
  rewrite Len. destruct P as [->|P]; [cbn; lia|]. apply l_pruning_len in P. exact P.
Qed.

Lemma children_complete local nd kids h a : (local < group_size)%nat -> (local < length levels)%nat -> length h = local -> sound h nd ->
  choice pb ss_bot ss_top (nth local levels 0%nat) h a ->
  l_children pb last_group middle_ply group_size ss_bot ss_top local (nth local levels 0%nat) nd = Ok kids -> exists k, In k kids /\ sound (h ++ [a]) k.
Proof.
  intros Hg Hlv Hl [N L] [angs [P [Ha _]]] E.
  assert (At : at_end (length h) = false) by (unfold at_end; rewrite Hl; destruct (Nat.eqb_spec local group_size); [lia|apply andb_false_r]).
  rewrite At in L. destruct (children_spec local _ h nd kids Hl Hg Hlv eq_refl N L E) as [angs' [P' [K [F Z0]]]].
  assert (P2 : l_pruning c (l_n pb) (nth local levels 0%nat) (simp_bot c ss_bot) (ln_bot nd) (simp_top c ss_top) (ln_top nd) (set_of_angles c) = Ok (Some angs)).
  { destruct N as [_ [-> [-> _]]]. exact P. }
  assert (Ea : angs' = angs).
  { destruct P' as [->|P']; [|congruence]. destruct (Z0 eq_refl) as [Q|Q]; congruence. }
  subst angs'. apply in_rev in Ha. clear -F Ha. revert F Ha. generalize (ln_counts (last kids nd)). intros cc F.
  induction F as [|b k la lk [H1 _] F IH]; intros []; [subst; exists k; split; [now left|exact H1]|].
  destruct (IH H) as [k' [H2 H3]]. exists k'. split; [now right|exact H3].
Qed.

Lemma l_expand_complete local : (local < group_size)%nat -> (local < length levels)%nat ->
  (branching <= l_local pb)%nat -> (branching <= l_local_final pb)%nat ->
  forall olds news out, (forall x, In x olds -> at_level local x) ->
  l_expand pb last_group middle_ply group_size ss_bot ss_top local (nth local levels 0%nat) (length olds) (olds ++ news) = Ok out ->
  (length out <= length news + branching * length olds)%nat /\ (forall x, In x news -> In x out) /\
  (forall h a nd, In nd olds -> length h = local -> sound h nd -> choice pb ss_bot ss_top (nth local levels 0%nat) h a -> exists k, In k out /\ sound (h ++ [a]) k).
Proof.
  intros Hg Hlv B1 B2. induction olds as [|nd olds IH]; intros news out Ho E.
  { cbn in E; injection E as <-. split; [lia|]. split; [auto|intros h a nd []]. }
  cbn [length app l_expand] in E. apply bind_inv in E as [kids [K E]]. apply bind_inv in E as [nodes [P E]].
  pose proof (children_len local nd kids Hg Hlv (Ho nd (or_introl eq_refl)) K) as Lk.
  assert (X : nodes = olds ++ (news ++ kids)).
  { destruct kids as [|k0 kids]; [injection P as <-; rewrite app_nil_r; reflexivity|]. unfold l_local_pruning in P.
    set (limit := if (last_group && _)%bool then _ else _) in P.
    assert (Bl : (branching <= limit)%nat) by (unfold limit; destruct (last_group && _)%bool; assumption).
    destruct (Nat.ltb_spec limit (length (k0 :: kids))) as [Q|Q]; [lia|]. rewrite andb_false_r in P. injection P as <-. rewrite app_assoc. reflexivity. }
  subst nodes. destruct (IH (news ++ kids) out (fun x Hx => Ho x (or_intror Hx)) E) as [C1 [C2 C3]].
  split; [rewrite app_length in C1; cbn [length]; lia|]. split; [intros x Hx; apply C2, in_or_app; now left|].
  intros h a x [<-|Hx] Hl Sx Ch; [|eapply C3; eauto].
  destruct (children_complete local nd kids h a Hg Hlv Hl Sx Ch K) as [k [Hk Sk]]. exists k. split; [|exact Sk]. apply C2, in_or_app. now right.
Qed.

Lemma path_inv h a : goodpath (h ++ [a]) -> goodpath h /\ (length h < length levels)%nat /\ choice pb ss_bot ss_top (nth (length h) levels 0%nat) h a.
Proof. intros H. inversion H as [E|h' a' P L Ch E]; [destruct h; discriminate|]. apply app_inj_tail in E as [-> ->]. auto. Qed.

Lemma l_levels_complete : (branching <= l_local pb)%nat -> (branching <= l_local_final pb)%nat ->
  (branching ^ group_size <= l_global pb)%nat -> (branching ^ group_size <= l_global_p pb)%nat ->
  forall k local nodes out, (local + k <= group_size)%nat -> (forall x, In x nodes -> at_level local x) -> (length nodes <= branching ^ local)%nat ->
  (forall h, goodpath h -> length h = local -> exists nd, In nd nodes /\ sound h nd) ->
  l_levels pb last_group middle_ply group_size ss_bot ss_top levels k local nodes = Ok out ->
  forall h, goodpath h -> length h = (local + k)%nat -> exists nd, In nd out /\ sound h nd.
Proof.
  intros B1 B2 B3 B4. induction k as [|k IH]; intros local nodes out B H Hlen Hc E; cbn [l_levels] in E; [injection E as <-; rewrite Nat.add_0_r; exact Hc|].
  apply bind_inv in E as [level [G E]]. destruct (get_bound _ _ _ G) as [Bl El]. rewrite (El 0%nat) in E. clear El G level.
  apply bind_inv in E as [nodes1 [X E]]. apply bind_inv in E as [nodes2 [Gp E]].
  assert (X' : l_expand pb last_group middle_ply group_size ss_bot ss_top local (nth local levels 0%nat) (length nodes) (nodes ++ []) = Ok nodes1) by (rewrite app_nil_r; exact X).
  destruct (l_expand_complete local ltac:(lia) Bl B1 B2 nodes [] nodes1 H X') as [C1 [_ C3]]. cbn [length] in C1.
  assert (Br : (2 <= branching)%nat) by (unfold branching; lia).
  assert (Ln : (length nodes1 <= branching ^ S local)%nat).
  { rewrite Nat.pow_succ_r'. eapply Nat.le_trans; [exact C1|]. cbn [Nat.add]. apply Nat.mul_le_mono_l. exact Hlen. }
  assert (Lp : (branching ^ S local <= branching ^ group_size)%nat) by (apply Nat.pow_le_mono_r; lia).
  assert (En : nodes2 = nodes1).
  { unfold l_global_pruning in Gp. destruct nodes1 as [|n0 nodes1]; [discriminate|].
    assert (KB : forall limit, (branching ^ group_size <= limit)%nat -> l_keep_best limit (n0 :: nodes1) = Ok (n0 :: nodes1)).
    { intros limit Hl. unfold l_keep_best. destruct (Nat.ltb_spec limit (length (n0 :: nodes1))); [lia|reflexivity]. }
    destruct (last_group && _)%bool; [rewrite KB in Gp by exact B4; injection Gp as <-; reflexivity|].
    destruct (negb _); [rewrite KB in Gp by exact B3; injection Gp as <-; reflexivity|injection Gp as <-; reflexivity]. }
  subst nodes2. replace (local + S k)%nat with (S local + k)%nat by lia. apply (IH (S local) nodes1 out); [lia| |exact Ln| |exact E].
  - intros x Hx. apply (l_expand_level local ltac:(lia) Bl nodes [] nodes1 H ltac:(intros y []) X' x Hx).
  - intros h Ph Hl. destruct (exists_last (l := h)) as [g [a ->]]; [intros ->; discriminate|].
    rewrite app_length, Nat.add_1_r in Hl. injection Hl as Hl. destruct (path_inv g a Ph) as [Pg [_ Ch]]. rewrite Hl in Ch.
    destruct (Hc g Pg Hl) as [nd [Hn Sn]]. eapply C3; eauto.
Qed.
End PROOFS.

Lemma start_level pb last_group middle gs ss_bot ss_top levels lp counts : (1 <= gs)%nat ->
  at_level pb last_group middle gs ss_bot ss_top levels lp counts 0 (l_start lp counts).
Proof.
  intros Hg. exists []. split; [reflexivity|]. split; [|congruence]. split.
  - split; [constructor|]. unfold l_start, bottom_of, top_of; cbn [ln_bot ln_top ln_counts].
    split; [destruct (sym _); reflexivity|]. split; [destruct (sym _); reflexivity|]. split; [reflexivity|].
    intros j Hj. unfold plies_of. cbn [map length]. destruct (Nat.eqb_spec 0 gs); [lia|]. rewrite andb_false_r. change (sumQ []) with 0%Q. ring.
  - unfold at_end. cbn [length]. destruct (Nat.eqb_spec 0 gs); [lia|]. rewrite andb_false_r. intros q. cbn. ring.
Qed.

Lemma leaves_level pb last_group middle gs ss_bot ss_top levels lp counts leaves best : (1 <= gs)%nat ->
  l_beam_search pb last_group middle gs ss_bot ss_top levels lp counts = Ok (leaves, best) ->
  (In best leaves /\ (forall x, In x leaves -> ln_obj best <= ln_obj x)%Q /\ (ln_obj best <= 9900000000 # 1)%Q) /\
  forall x, In x leaves -> at_level pb last_group middle gs ss_bot ss_top levels lp counts gs x.
Proof.
  intros Hg H. unfold l_beam_search in H. apply bind_inv in H as [nodes [L H]]. apply bind_inv in H as [nd [Bt H]]. injection H as -> ->.
  split.
  - unfold l_best in Bt. apply bind_inv in Bt as [i [A Bt]]. apply bind_inv in Bt as [nd' [G Bt]]. apply bind_inv in Bt as [u [Gd Bt]]. injection Bt as ->.
    destruct (get_bound _ _ _ G) as [Bi Ei].
    assert (Ne : map ln_obj leaves <> []) by (destruct leaves; [cbn in Bi; lia|discriminate]).
    destruct (argmin_ok _ Ne) as [i' [A' [Bi' M]]]. assert (i' = i) by congruence. subst i'.
    assert (Nx : forall j, (j < length leaves)%nat -> nth j (map ln_obj leaves) 0%Q = ln_obj (nth j leaves best)).
    { intros j Hj. rewrite (nth_indep _ 0%Q (ln_obj best)) by (rewrite map_length; exact Hj). apply map_nth. }
    split; [rewrite (Ei best); apply nth_In; exact Bi|]. split.
    + intros x Hx. apply (In_nth _ _ best) in Hx as [j [Hj <-]]. specialize (M j ltac:(rewrite map_length; exact Hj)).
      rewrite (Nx i Bi), (Nx j Hj), <- (Ei best) in M. exact M.
    + apply guard_inv, Qltb_false in Gd. exact Gd.
  - intros x Hx. change gs with (0 + gs)%nat at 2.
    eapply (l_levels_level pb last_group middle gs ss_bot ss_top levels lp counts gs 0); [lia| |exact L|exact Hx].
    intros y [<-|[]]. apply start_level. exact Hg.
Qed.

(* ------------------------------------------------------------------ *)
(** ** C79 *)

(** the leaves and the one returned *)
Theorem C79_leaves : forall pb last_group middle gs ss_bot ss_top levels lp counts leaves best,
  let c := l_cons pb in
  (1 <= gs)%nat ->
  l_beam_search pb last_group middle gs ss_bot ss_top levels lp counts = Ok (leaves, best) ->
  In best leaves /\ (forall x, In x leaves -> ln_obj best <= ln_obj x)%Q /\ (ln_obj best <= 9900000000 # 1)%Q /\
  forall x, In x leaves -> exists h, length h = gs /\ path pb ss_bot ss_top levels h /\
    ln_bot x = bottom_of (sym c) h /\ ln_top x = top_of (sym c) h /\
    (forall j, (j < length counts)%nat -> nth j (ln_counts x) 0 == nth j counts 0 + plies_of c (negb (Nat.eqb middle 0)) gs h j)%Q /\
    (last_group = false -> forall q, ln_lampam x q == lp q + contribution (l_rows pb) (firstn gs levels) h q)%Q.
Proof.
  intros pb last_group middle gs ss_bot ss_top levels lp counts leaves best c Hg H.
  destruct (leaves_level _ _ _ _ _ _ _ _ _ _ _ Hg H) as [[H1 [H2 H3]] H4]. do 3 (split; [assumption|]).
  intros x Hx. destruct (H4 x Hx) as [h [Hl [[[P [B [T [L C]]]] E] _]]]. exists h. do 5 (split; [assumption|]).
  intros ->. unfold at_end in E. cbn [andb] in E. intros q. rewrite (E q), Hl. reflexivity.
Qed.
Print Assumptions C79_leaves.

Lemma full_laminate pb middle ss_bot ss_top nd h :
  middle = middle_ply_index (sym (l_cons pb)) (l_n pb) -> ln_bot nd = bottom_of (sym (l_cons pb)) h -> ln_top nd = top_of (sym (l_cons pb)) h -> (1 <= length h)%nat ->
  length (l_full pb middle ss_bot ss_top nd) = l_n pb ->
  l_full pb middle ss_bot ss_top nd = laminate (sym (l_cons pb)) (l_n pb) ss_bot ss_top h.
Proof.
  intros Hm B T Hh L. unfold l_full, laminate in *. rewrite B, T in L |- *. clear B T. unfold bottom_of, top_of in *. destruct (sym (l_cons pb)); [|reflexivity].
  set (hf := ss_bot ++ h). assert (E : ss_bot ++ h ++ rev h ++ rev ss_bot = hf ++ rev hf) by (unfold hf; rewrite rev_app_distr, <- !app_assoc; reflexivity).
  rewrite E in L |- *. clear E. unfold middle_ply_index in Hm. cbn [andb] in Hm. destruct (Nat.odd (l_n pb)) eqn:Eo.
  - apply Nat.odd_spec in Eo as [m Em]. assert (Hmm : middle = S m) by (rewrite Hm, Em; replace (2 * m + 1 + 1)%nat with ((S m) * 2)%nat by lia; apply Nat.div_mul; lia).
    clear Hm. subst middle. cbn [Nat.eqb] in *.
    assert (Hf : (1 <= length hf)%nat) by (unfold hf; rewrite app_length; lia).
    destruct (Nat.lt_ge_cases (S m) (length (hf ++ rev hf))) as [Q|Q].
    + assert (Ld : length (del (S m) (hf ++ rev hf)) = (length (hf ++ rev hf) - 1)%nat).
      { clear -Q. revert Q. generalize (S m) (hf ++ rev hf). intros k l. revert k. induction l as [|x l IH]; intros [|k] Q; cbn in *; try lia.
        rewrite IH by lia. destruct l; cbn in *; lia. }
      rewrite Ld, app_length, rev_length, Em in L. assert (Lh : length hf = S m) by lia.
      assert (D : forall (l r : list Z) x, del (length l) (l ++ x :: r) = l ++ r).
      { induction l as [|y l IH]; intros r x; cbn; [reflexivity|]. rewrite IH. reflexivity. }
      destruct (exists_last (l := hf)) as [g [x Eg]]; [intros Q2; rewrite Q2 in Hf; cbn in Hf; lia|].
      rewrite <- Lh. rewrite Eg at 3. rewrite rev_app_distr. cbn [rev app]. rewrite D. f_equal.
      rewrite Em, Lh. replace (2 * m + 1 - S m)%nat with m by lia. rewrite Eg, app_length in Lh. cbn in Lh. f_equal.
      rewrite Eg, firstn_app. replace (m - length g)%nat with 0%nat by lia. cbn [firstn]. rewrite app_nil_r, firstn_all2 by lia. reflexivity.
    + exfalso. assert (D : forall k (l : list Z), (length l <= k)%nat -> del k l = l).
      { induction k as [|k IH]; intros [|x l] Hk; cbn in *; try lia; auto. f_equal. apply IH. lia. }
      rewrite D, app_length, rev_length, Em in L by exact Q. lia.
  - rewrite Hm in L |- *. cbn [Nat.eqb] in *. f_equal. rewrite app_length, rev_length in L. rewrite firstn_all2 by lia. reflexivity.
Qed.

(** the last group: full laminates, their repair, and the guarantees on the returned one *)
Theorem C79_last_group : forall pb gs ss_bot ss_top levels lp counts leaves best,
  let c := l_cons pb in
  (1 <= gs)%nat ->
  l_beam_search pb true (middle_ply_index (sym c) (l_n pb)) gs ss_bot ss_top levels lp counts = Ok (leaves, best) ->
  (forall x, In x leaves -> exists h, length h = gs /\ path pb ss_bot ss_top levels h /\
    let ss := laminate (sym c) (l_n pb) ss_bot ss_top h in
    length ss = l_n pb /\ l_repair pb ss = Ok (ln_final x, ln_ok x) /\
    (ln_ok x = true -> l_gate pb (ln_final x) = Ok tt /\ ln_lampam x = l_lampam_of pb (ln_final x))) /\
  ((forall x, 0 <= l_pen_10 pb x)%Q -> (forall l x, 0 <= l_pen_bal pb l x)%Q -> (forall l x, 0 <= l_pen_ipo pb l x)%Q -> (forall l x, 0 <= l_pen_oopo pb l x)%Q ->
   (0 <= l_c10 pb)%Q -> (0 <= l_cbal pb)%Q -> (0 <= l_coopo pb)%Q -> ln_ok best = true).
Proof.
  intros pb gs ss_bot ss_top levels lp counts leaves best c Hg H.
  destruct (leaves_level _ _ _ _ _ _ _ _ _ _ _ Hg H) as [[H1 [H2 H3]] H4]. split.
  - intros x Hx. destruct (H4 x Hx) as [h [Hl [[[P [B [T [L C]]]] E] _]]]. exists h. do 2 (split; [assumption|]).
    unfold at_end in E. rewrite Hl, Nat.eqb_refl in E. cbn [andb] in E. destruct E as [E1 [r [ok [E2 [E3 [E4 E5]]]]]].
    pose proof (full_laminate pb _ ss_bot ss_top x h eq_refl B T ltac:(lia) E1) as F. fold c in F. cbv zeta. rewrite <- F.
    split; [exact E1|]. rewrite E3, E4. split; [exact E2|]. intros ->. exact E5.
  - intros Z1 Z2 Z3 Z4 Z5 Z6 Z7. destruct (ln_ok best) eqn:Eo; [reflexivity|]. exfalso.
    destruct (H4 best H1) as [h [Hl [_ Sc]]]. destruct (Sc ltac:(lia)) as [g [a [a' [kid [Eh [_ [_ Ob]]]]]]]. cbv zeta in Ob.
    unfold estimate_of, at_end in Ob. rewrite Hl, Nat.eqb_refl, Eo in Ob. cbn [andb negb] in Ob. rewrite Ob in H3.
    set (lv := nth (length g) levels 0%nat) in *. unfold calc_obj_multi_ss in H3.
    assert (M : forall x y, (0 <= l_max x y \/ x < 0)%Q). { intros x y. unfold l_max. destruct (Qle_bool x y) eqn:Q; [apply Qle_bool_iff in Q|]; lra. }
    assert (M0 : (0 <= l_max (l_pen_bal pb lv (ln_counts kid)) (l_pen_ipo pb lv (ln_lampam best)))%Q).
    { destruct (M (l_pen_bal pb lv (ln_counts kid)) (l_pen_ipo pb lv (ln_lampam best))) as [Q|Q]; [exact Q|]. specialize (Z2 lv (ln_counts kid)). lra. }
    assert (G1 : forall k x : Q, (0 <= k -> 0 <= x -> 1 <= 1 + k * x)%Q). { intros k x Hk Hx. pose proof (Qmult_le_0_compat k x Hk Hx). lra. }
    assert (G2 : forall x y : Q, (10000000000 # 1 <= x -> 1 <= y -> 10000000000 # 1 <= x * y)%Q).
    { intros x y Hx Hy. assert (Q : (0 <= x * (y - 1))%Q) by (apply Qmult_le_0_compat; lra). assert (Q2 : (x * y == x * (y - 1) + x)%Q) by ring. rewrite Q2. lra. }
    pose proof (G2 _ _ (G2 _ _ (G2 _ _ (Qle_refl _) (G1 _ _ Z5 (Z1 (ln_counts best)))) (G1 _ _ Z6 M0)) (G1 _ _ Z7 (Z4 lv (ln_lampam best)))) as Fin. lra.
Qed.
Print Assumptions C79_last_group.

(** the objective a leaf is compared by: all the penalties are its own but the balance penalty by
    ply counts, which is that of the plies chosen before and the first angle left by the pruning *)
Theorem C79_objective_partial : forall pb last_group middle gs ss_bot ss_top levels lp counts leaves best,
  let c := l_cons pb in let level := nth (gs - 1) levels 0%nat in
  (1 <= gs)%nat ->
  l_beam_search pb last_group middle gs ss_bot ss_top levels lp counts = Ok (leaves, best) ->
  forall x, In x leaves -> exists g a a' shared, path pb ss_bot ss_top levels (g ++ [a]) /\ length g = (gs - 1)%nat /\ ln_bot x = bottom_of (sym c) (g ++ [a]) /\
    ln_top x = top_of (sym c) (g ++ [a]) /\
    first_choice pb ss_bot ss_top level g a' /\
    (forall j, (j < length counts)%nat -> nth j shared 0 == nth j counts 0 + plies_of c (negb (Nat.eqb middle 0)) gs (g ++ [a']) j)%Q /\
    ln_obj x = calc_obj_multi_ss
      (if (last_group && negb (ln_ok x))%bool then (10000000000 # 1)%Q else l_objective pb level (ln_lampam x))
      (l_pen_10 pb (ln_counts x)) (l_max (l_pen_bal pb level shared) (l_pen_ipo pb level (ln_lampam x)))
      (l_pen_oopo pb level (ln_lampam x)) (l_c10 pb) (l_cbal pb) (l_coopo pb).
Proof.
  intros pb last_group middle gs ss_bot ss_top levels lp counts leaves best c level Hg H x Hx.
  destruct (leaves_level _ _ _ _ _ _ _ _ _ _ _ Hg H) as [_ H4]. destruct (H4 x Hx) as [h [Hl [[[P [B [T [L C]]]] E] Sc]]].
  destruct (Sc ltac:(lia)) as [g [a [a' [kid [-> [Fc [Nk Ob]]]]]]]. rewrite app_length, Nat.add_1_r in Hl.
  assert (Hgl : length g = (gs - 1)%nat) by lia. rewrite Hgl in Fc, Ob. fold level in Fc, Ob.
  exists g, a, a', (ln_counts kid). do 4 (split; [assumption|]). split; [exact Fc|]. split; [apply Nk|].
  cbv zeta in Ob. unfold estimate_of, at_end in Ob. rewrite app_length, Nat.add_1_r, Hl, Nat.eqb_refl, andb_true_r in Ob. exact Ob.
Qed.
Print Assumptions C79_objective_partial.

(** with limits that no level of the tree exceeds, every admissible sequence of angles is a leaf *)
Theorem C79_exhaustive : forall pb last_group middle gs ss_bot ss_top levels lp counts leaves best,
  let c := l_cons pb in let m := Nat.max 2 (length (set_of_angles c)) in
  (1 <= gs)%nat -> (m <= l_local pb)%nat -> (m <= l_local_final pb)%nat -> (m ^ gs <= l_global pb)%nat -> (m ^ gs <= l_global_p pb)%nat ->
  l_beam_search pb last_group middle gs ss_bot ss_top levels lp counts = Ok (leaves, best) ->
  forall h, path pb ss_bot ss_top levels h -> length h = gs ->
  exists x, In x leaves /\ ln_bot x = bottom_of (sym c) h /\ ln_top x = top_of (sym c) h /\ (ln_obj best <= ln_obj x)%Q /\
    (last_group = true -> middle = middle_ply_index (sym c) (l_n pb) -> l_repair pb (laminate (sym c) (l_n pb) ss_bot ss_top h) = Ok (ln_final x, ln_ok x)).
Proof.
  intros pb last_group middle gs ss_bot ss_top levels lp counts leaves best c m Hg B1 B2 B3 B4 H h Ph Hl.
  destruct (leaves_level _ _ _ _ _ _ _ _ _ _ _ Hg H) as [[_ [H2 _]] _]. pose proof H as H0.
  unfold l_beam_search in H. apply bind_inv in H as [nodes [L H]]. apply bind_inv in H as [nd [Bt H]]. injection H as -> ->.
  destruct (l_levels_complete pb last_group middle gs ss_bot ss_top levels lp counts B1 B2 B3 B4 gs 0 [l_start lp counts] leaves) with (h := h) as [x [Hx Sx]]; auto.
  - intros y [<-|[]]. apply start_level. exact Hg.
  - intros g Pg Hgl. destruct g; [|discriminate]. exists (l_start lp counts). split; [now left|].
    destruct (start_level pb last_group middle gs ss_bot ss_top levels lp counts Hg) as [g [Hg0 [Sg _]]]. destruct g; [exact Sg|discriminate].
  - exists x. split; [exact Hx|]. destruct Sx as [[_ [B [T _]]] E]. split; [exact B|]. split; [exact T|]. split; [apply H2; exact Hx|].
    intros -> Hm. unfold at_end in E. rewrite Hl, Nat.eqb_refl in E. cbn [andb] in E. destruct E as [E1 [r [ok [E2 [E3 [E4 _]]]]]].
    pose proof (full_laminate pb middle ss_bot ss_top x h Hm B T ltac:(lia) E1) as F. fold c in F. rewrite <- F, E3, E4. exact E2.
Qed.
Print Assumptions C79_exhaustive.

(** the children removed after the expansion of a node are worse than those kept *)
Theorem C79_local_pruning : forall pb (last_group : bool) gs local pre kids,
  let limit := if last_group then l_local_final pb else l_local pb in
  (forall x, In x (pre ++ kids) -> -6666 < ln_obj x)%Q -> (S local < gs)%nat ->
  exists fs, l_local_pruning pb last_group gs local (length kids) (pre ++ kids) = Ok (pre ++ kept_entries fs kids) /\ length fs = length kids /\
    length (kept_entries fs kids) = Nat.min limit (length kids) /\
    (forall i j d, (i < length kids)%nat -> (j < length kids)%nat -> nth i fs false = true -> nth j fs false = false ->
       ln_obj (nth i kids d) <= ln_obj (nth j kids d))%Q.
Proof.
  intros pb last_group gs local pre kids limit Hb Hl.
  set (nodes := pre ++ kids).
  pose proof (C32_local_pruning lnode lnode {| t_ss := nodes; t_num := nodes; t_obj := map ln_obj nodes |} (length kids) limit) as C.
  cbn [t_ss t_num t_obj] in C. rewrite !map_length in C.
  destruct (C eq_refl eq_refl) as [t' [fs [E [Lf [_ [F2 [_ [F4 [F5 F6]]]]]]]]].
  { unfold nodes. rewrite app_length. lia. }
  { intros x Hx. apply in_map_iff in Hx as [y [<- Hy]]. apply Hb. exact Hy. }
  clear C. assert (Lp : (length nodes - length kids = length pre)%nat) by (unfold nodes; rewrite app_length; lia). rewrite Lp in F4, F5, F6.
  assert (Ln : length nodes = (length pre + length kids)%nat) by (unfold nodes; apply app_length).
  assert (M : l_local_pruning pb last_group gs local (length kids) nodes = Ok (t_num t')).
  { unfold l_local_pruning. unfold local_pruning in E. cbn [t_num t_obj t_ss negb andb] in E. rewrite map_length in E.
    destruct (Nat.eqb_spec (S local) gs); [lia|]. cbn [negb andb]. rewrite andb_true_r. fold limit.
    destruct (limit <? length kids)%nat; [|injection E as <-; reflexivity].
    apply bind_inv in E as [r [Mk E]]. rewrite Mk. cbn [bind]. injection E as <-. reflexivity. }
  rewrite F2 in M. unfold nodes in M at 2. rewrite kept_app in M; [|lia|exact F4].
  exists (skipn (length pre) fs). split; [exact M|]. split; [rewrite skipn_length; lia|]. split.
  - change (length (@keepf lnode (skipn (length pre) fs) kids) = Nat.min limit (length kids)).
    rewrite filter_fst_combine by (rewrite skipn_length; lia). exact F5.
  - intros i j d Hi Hj Ei Ej.
    assert (N : forall k, nth k (skipn (length pre) fs) false = nth (length pre + k) fs false).
    { intros k. clear. revert fs. induction (length pre) as [|p IH]; intros fs; [reflexivity|]. destruct fs; [destruct k; reflexivity|]. apply IH. }
    rewrite N in Ei, Ej. specialize (F6 (length pre + i)%nat (length pre + j)%nat ltac:(lia) ltac:(lia) Ei Ej).
    assert (O : forall k, (k < length kids)%nat -> nth (length pre + k) (map ln_obj nodes) 0%Q = ln_obj (nth k kids d)).
    { intros k Hk. rewrite (nth_indep _ 0%Q (ln_obj d)) by (rewrite map_length; lia). rewrite (map_nth ln_obj). unfold nodes. rewrite app_nth2_plus. reflexivity. }
    rewrite !O in F6 by assumption. exact F6.
Qed.
Print Assumptions C79_local_pruning.

(** after a level, the nodes removed are worse than those kept *)
Theorem C79_global_pruning : forall pb last_group gs local nodes,
  let limit := if (last_group && Nat.eqb (S (S local)) gs)%bool then l_global_p pb else l_global pb in
  (forall x, In x nodes -> ln_obj x < 6666)%Q -> nodes <> [] -> (S local < gs)%nat ->
  exists fs, l_global_pruning pb last_group gs local nodes = Ok (kept_entries fs nodes) /\ length fs = length nodes /\
    length (kept_entries fs nodes) = Nat.min limit (length nodes) /\
    (forall i j d, (i < length nodes)%nat -> (j < length nodes)%nat -> nth i fs false = true -> nth j fs false = false ->
       ln_obj (nth i nodes d) <= ln_obj (nth j nodes d))%Q.
Proof.
  intros pb last_group gs local nodes limit Hb Ne Hl.
  pose proof (C32_global_pruning lnode lnode {| t_ss := nodes; t_num := nodes; t_obj := map ln_obj nodes |} limit) as C.
  cbn [t_ss t_num t_obj] in C. rewrite !map_length in C.
  destruct (C eq_refl eq_refl) as [_ C2].
  { intros x Hx. apply in_map_iff in Hx as [y [<- Hy]]. apply Hb. exact Hy. }
  destruct C2 as [t' [fs [E [Lf [_ [F2 [F3 [F4 F5]]]]]]]]; [destruct nodes; [congruence|discriminate]|].
  assert (M : l_global_pruning pb last_group gs local nodes = Ok (t_num t')).
  { unfold l_global_pruning. destruct (Nat.eqb_spec (S local) gs); [lia|]. cbn [negb].
    destruct nodes as [|n0 nodes]; [congruence|]. cbv beta iota. set (nn := n0 :: nodes) in *.
    assert (K : l_keep_best limit nn = Ok (t_num t')).
    { unfold l_keep_best. unfold global_pruning in E. cbn [t_num t_obj t_ss] in E. rewrite map_length in E. unfold nn in E at 1. cbn [map] in E. fold nn in E.
      destruct (limit <? length nn)%nat; [|injection E as <-; reflexivity].
      apply bind_inv in E as [r [Mk E]]. rewrite Mk. cbn [bind]. injection E as <-. reflexivity. }
    unfold limit in K. destruct (last_group && Nat.eqb (S (S local)) gs)%bool; exact K. }
  rewrite F2 in M. exists fs. split; [exact M|]. split; [exact Lf|]. split.
  - rewrite F3, kept_map, map_length in F4. exact F4.
  - intros i j d Hi Hj Ei Ej. specialize (F5 i j Hi Hj Ei Ej).
    assert (O : forall k, (k < length nodes)%nat -> nth k (map ln_obj nodes) 0%Q = ln_obj (nth k nodes d)).
    { intros k Hk. rewrite (nth_indep _ 0%Q (ln_obj d)) by (rewrite map_length; lia). apply map_nth. }
    rewrite !O in F5 by assumption. exact F5.
Qed.
Print Assumptions C79_global_pruning.

(* ------------------------------------------------------------------ *)
(** ** The objective is not that of the leaf *)

(** a single unbalanced ply at +/-45 is penalised by the balance rule, the objective prefers 45 *)
Definition pb_ex (repair : list Z -> result (list Z * bool)) (limit n : nat) : lproblem :=
  {| l_cons := cons_ex; l_n := n; l_rows := repeat (fun a _ => inject_Z a) 6;
     l_objective := fun _ lp => (10 - lp 0%nat * (1 # 90))%Q;
     l_pen_10 := fun _ => 0%Q; l_pen_bal := fun _ ct => Qabs (nth 2 ct 0 - nth 0 ct 0)%Q; l_pen_ipo := fun _ _ => 0%Q; l_pen_oopo := fun _ _ => 0%Q;
     l_c10 := 0%Q; l_cbal := 1%Q; l_coopo := 0%Q;
     l_repair := repair; l_lampam_of := fun ss _ => inject_Z (sumZ ss); l_gate := fun _ => Ok tt;
     l_local := limit; l_local_final := limit; l_global := limit; l_global_p := limit |}.
Definition own_objective (pb : lproblem) (level : nat) (x : lnode) : Q :=
  calc_obj_multi_ss (l_objective pb level (ln_lampam x)) (l_pen_10 pb (ln_counts x))
    (l_max (l_pen_bal pb level (ln_counts x)) (l_pen_ipo pb level (ln_lampam x))) (l_pen_oopo pb level (ln_lampam x)) (l_c10 pb) (l_cbal pb) (l_coopo pb).

(** the returned leaf need not be the best one: the balance penalty of every child of a node is
    that of the child of the first angle *)
Theorem C79_balance_refuted :
  ~ (forall pb middle gs ss_bot ss_top levels lp counts leaves best, (1 <= gs)%nat ->
       l_beam_search pb false middle gs ss_bot ss_top levels lp counts = Ok (leaves, best) ->
       forall x, In x leaves -> (own_objective pb (nth (gs - 1) levels 0%nat) best <= own_objective pb (nth (gs - 1) levels 0%nat) x)%Q).
Proof.
  intros H.
  set (r := l_beam_search (pb_ex (fun l => Ok (l, true)) 9 8) false 0 1 [-45; 90] [] [2%nat] lampam_zero [1; 0; 0; 1]%Q).
  destruct r as [[leaves best]|] eqn:E; [|vm_compute in E; discriminate].
  destruct (nth_error leaves 1) as [x|] eqn:Ex; [|exfalso; vm_compute in E; injection E as <- <-; vm_compute in Ex; discriminate].
  specialize (H _ _ _ _ _ _ _ _ _ _ (Nat.le_refl 1) E x (nth_error_In _ _ Ex)).
  vm_compute in E. injection E as <- <-. vm_compute in Ex. injection Ex as <-. vm_compute in H. apply H. reflexivity.
Qed.
Print Assumptions C79_balance_refuted.

(** the ply counts of a repaired leaf, from which its penalty of the ten percent rule is
    calculated, are those before the repair *)
Theorem C79_counts_after_repair_refuted :
  ~ (forall pb gs levels lp leaves best, (1 <= gs)%nat -> sym (l_cons pb) = true -> Nat.odd (l_n pb) = false ->
       l_beam_search pb true 0 gs [] [] levels lp (repeat 0%Q (length (set_of_angles (l_cons pb)))) = Ok (leaves, best) ->
       forall x j, In x leaves -> ln_ok x = true -> (j < length (set_of_angles (l_cons pb)))%nat ->
         (2 * nth j (ln_counts x) 0 == sumQ (map (weight_of (l_cons pb) j) (ln_final x)))%Q).
Proof.
  intros H.
  set (r := l_beam_search (pb_ex (fun _ => Ok ([45; 45], true)) 9 2) true 0 1 [] [] [0%nat] lampam_zero [0; 0; 0; 0]%Q).
  destruct r as [[leaves best]|] eqn:E; [|vm_compute in E; discriminate].
  destruct (nth_error leaves 1) as [x|] eqn:Ex; [|exfalso; vm_compute in E; injection E as <- <-; vm_compute in Ex; discriminate].
  specialize (H (pb_ex (fun _ => Ok ([45; 45], true)) 9 2) 1%nat [0%nat] lampam_zero leaves best (Nat.le_refl 1) eq_refl eq_refl E x 0%nat (nth_error_In _ _ Ex)).
  vm_compute in E. injection E as <- <-. vm_compute in Ex. injection Ex as <-. specialize (H eq_refl ltac:(cbn; lia)). vm_compute in H. discriminate.
Qed.
Print Assumptions C79_counts_after_repair_refuted.

(** the reported numbers of designs: the leaves, the repaired ones, the different stacks among the
    leaves of an objective below 1e10 *)
Theorem C79_statistics : forall leaves, let '(total, repaired, unique) := l_statistics leaves in
  total = length leaves /\ repaired = countb ln_ok leaves /\
  forall stacks, NoDup stacks -> (forall s, In s stacks <-> exists x, In x leaves /\ (ln_obj x < 10000000000 # 1)%Q /\ ln_final x = s) ->
    unique = length stacks.
Proof.
  intros leaves. unfold l_statistics. split; [reflexivity|]. split; [reflexivity|]. intros stacks Nd H.
  apply Nat.le_antisymm; apply NoDup_incl_length; auto using NoDup_nodup.
  - intros s Hs. apply nodup_In, in_map_iff in Hs as [x [<- Hx]]. apply filter_In in Hx as [Hx Ho]. apply H. exists x. apply Qltb_true in Ho. auto.
  - intros s Hs. apply nodup_In, in_map_iff. apply H in Hs as [x [Hx [Ho E]]]. exists x. split; [exact E|]. apply filter_In. split; [exact Hx|]. apply Qltb_true. exact Ho.
Qed.
Print Assumptions C79_statistics.

(** a group of three plies at the mid-surface of a laminate of seven plies, three nodes per level *)
Example C79_example :
  let r := l_beam_search (pb_ex (fun l => Ok (l, true)) 3 7) true (middle_ply_index true 7) 3 [-45] [] [1; 2; 3]%nat lampam_zero [1; 0; 0; 0]%Q in
  exists leaves best, r = Ok (leaves, best) /\ length leaves = 4%nat /\ ln_bot best = [90; 45; 90] /\ ln_final best = [-45; 90; 45; 90; 45; 90; -45] /\
    ln_counts best = [1; 0; 1; 3 # 2]%Q /\ laminate true 7 [-45] [] [90; 45; 90] = ln_final best /\ l_statistics leaves = (4, 4, 4)%nat /\
    (forall x, In x leaves -> -6666 < ln_obj x < 6666)%Q.
Proof.
  cbv zeta. eexists _, _. split; [vm_compute; reflexivity|]. do 6 (split; [reflexivity|]).
  intros x Hx. cbn in Hx. repeat (destruct Hx as [<-|Hx]; [cbn [ln_obj]; split; reflexivity|]). destruct Hx.
Qed.
