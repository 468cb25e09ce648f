(* Properties_searchfinds.v - C100: when every angle has a way on, the search finds designs. *)
From Coq Require Import Lqa.
From Verif Require Properties_swap.
From Verif Require Import Base Uniq Constraints Guidelines SpecGuidelines GuidelinesProofs ConstraintsProofs PdlTools GroupFilters GroupFiltersProofs Pruning PruningProofs Format FormatProofs Moments MomentsProofs Search SearchProofs Properties_search Beam BeamProofs Properties_beam Properties_searchreturns.
Local Open Scope Z_scope.

(** from an angle [x] one of the candidates can be laid next: within the limit of disorientation,
    and different when the contiguity rule is on *)
Definition way_on (c : cons) (candidates : list Z) (x : Z) : Prop :=
  exists a, In a candidates /\ (contig c = true -> a <> x) /\ (diso c = true -> diso_ok (delta_angle c) x a).

(* ---------------- blocks ---------------- *)
Lemma contig_other n b a : (1 <= n)%nat -> contig_stack n b -> (forall b0 y, b = b0 ++ [y] -> a <> y) -> contig_stack n (b ++ [a]).
Proof.
  intros Hn Hb Ha. apply (contig_snoc n b a Hn Hb). intros [x [l1 [l2 [E [L1 L2]]]]].
  assert (l2 = []) as -> by (apply length_zero_iff_nil; apply (f_equal (@length Z)) in E; rewrite !app_length, repeat_length in E; cbn [length] in E; lia).
  rewrite app_nil_r in E. destruct n as [|n]; [lia|].
  assert (R : repeat x (S (S n)) = repeat x n ++ [x] ++ [x]).
  { clear. induction n as [|n IH]; [reflexivity|]. cbn [repeat app] in *. rewrite IH. reflexivity. }
  rewrite R, !app_assoc in E. apply app_inj_tail in E. destruct E as [E ->]. exact (Ha _ _ E eq_refl).
Qed.
Lemma mirror_other n b a q : (2 <= n)%nat -> (1 <= q <= 2)%nat -> contig_stack n b -> (forall b0 y, b = b0 ++ [y] -> a <> y) -> contig_stack n (b ++ repeat a q ++ rev b).
Proof.
  intros Hn Hq Hb Ha B. apply has_block_nth in B. destruct B as [i [Hi E]]. rewrite !app_length, repeat_length, rev_length in Hi.
  set (X := b ++ repeat a q ++ rev b) in *. set (m := length b) in *.
  assert (XA : forall j, (j < q)%nat -> nth (m + j) X 0 = a).
  { intros j Hj. unfold X. rewrite app_nth2, app_nth1 by (rewrite ?repeat_length; unfold m; lia). replace (m + j - length b)%nat with j by (unfold m; lia).
    apply (repeat_spec q). apply nth_In. rewrite repeat_length. exact Hj. }
  assert (XL : forall j, (j < m)%nat -> nth j X 0 = nth j b 0) by (intros j Hj; unfold X; apply app_nth1; exact Hj).
  assert (XR : forall j, nth (m + q + j) X 0 = nth j (rev b) 0).
  { intros j. unfold X. rewrite !app_nth2 by (rewrite ?repeat_length; unfold m; lia). rewrite repeat_length. f_equal. unfold m. lia. }
  assert (Last : (1 <= m)%nat -> nth (m - 1) b 0 <> a /\ nth 0 (rev b) 0 <> a).
  { intros M. destruct b as [|y b0 _] using rev_ind; [cbn in M; lia|]. unfold m. rewrite rev_app_distr. cbn [rev app nth]. rewrite app_length. cbn [length].
    replace (length b0 + 1 - 1)%nat with (length b0) by lia. rewrite nth_middle. pose proof (Ha b0 y eq_refl). auto. }
  destruct (Nat.lt_ge_cases (i + n) m) as [C1|C1].
  { apply Hb, has_block_nth. exists i. split; [exact C1|]. intros k Hk. specialize (E k Hk). rewrite !XL in E by lia. exact E. }
  destruct (Nat.lt_ge_cases i m) as [C2|C2].
  { destruct (Last ltac:(lia)) as [L _]. apply L. rewrite <- XL by lia. pose proof (E (m - 1 - i)%nat ltac:(lia)) as E1. pose proof (E (m - i)%nat ltac:(lia)) as E2.
    replace (i + (m - 1 - i))%nat with (m - 1)%nat in E1 by lia. replace (i + (m - i))%nat with (m + 0)%nat in E2 by lia. rewrite XA in E2 by lia. congruence. }
  destruct (Nat.lt_ge_cases i (m + q)) as [C3|C3].
  { destruct (Last ltac:(lia)) as [_ L]. apply L. pose proof (E (m + q - i)%nat ltac:(lia)) as E1. replace (i + (m + q - i))%nat with (m + q + 0)%nat in E1 by lia. rewrite XR in E1. rewrite E1.
    replace i with (m + (i - m))%nat by lia. apply XA. lia. }
  apply (contig_rev n b Hb). apply has_block_nth. exists (i - (m + q))%nat. rewrite rev_length. split; [lia|]. intros k Hk. specialize (E k Hk).
  replace (i + k)%nat with (m + q + (i - (m + q) + k))%nat in E by lia. rewrite XR in E. rewrite E. replace i with (m + q + (i - (m + q)))%nat at 1 by lia. apply XR.
Qed.

(* ---------------- the pruning ---------------- *)
Lemma contig_few n l : (length l <= n)%nat -> contig_stack n l.
Proof. intros H (x & l1 & l2 & E). apply (f_equal (@length Z)) in E. rewrite !app_length, repeat_length in E. lia. Qed.

Section Pruned.
Variable c : cons.
Hypothesis Sy : sym c = true.
Hypothesis Dm : dam_tol c = true -> In 45 (set_of_angles c) /\ In (-45) (set_of_angles c).
Hypothesis Nc : contig c = true -> (2 <= n_contig c <= 6)%nat.
Hypothesis Set_ok : Forall angle_ok (set_of_angles c).
(** rules 2 and 3 act on the second ply too *)
Definition rule23 : Prop := dam_tol c = true /\ (dam_tol_rule c = 2 \/ dam_tol_rule c = 3)%nat.
(** the stack of a node below the last level *)
Definition healthy (bot : list Z) : Prop :=
  Forall (fun x => In x (set_of_angles c)) bot /\ (contig c = true -> contig_stack (n_contig c) bot) /\ (dam_tol c = true -> forall x b0, bot = x :: b0 -> pm45 x).

Lemma pruning_plain n level hm bot top child : pruning c n level hm bot top child =
  let last := Nat.eqb (S level) n in
  let child := if (last && hm)%bool then [0; 90] else child in
  if (dam_tol c && (level =? 0)%nat)%bool then Ok (none_if_empty (filter is45 child))
  else if (dam_tol c && ((dam_tol_rule c =? 2)%nat || (dam_tol_rule c =? 3)%nat) && (level =? 1)%nat)%bool then
    do r <- filterR (second_ply c (getR bot 0)) child; Ok (none_if_empty r)
  else
  do child <- prune_diso c last level bot top child;
  if (diso c && match child with [] => true | _ => false end)%bool then Ok None else
  do child <- prune_contig c last hm level bot child;
  if (contig c && match child with [] => true | _ => false end)%bool then Ok None else Ok (Some child).
Proof. unfold pruning. rewrite Sy. cbn [andb negb orb]. rewrite !orb_false_r, !andb_false_r. reflexivity. Qed.
Lemma rule23_test : (dam_tol c && ((dam_tol_rule c =? 2)%nat || (dam_tol_rule c =? 3)%nat))%bool = true <-> rule23.
Proof. unfold rule23. rewrite andb_true_iff, orb_true_iff, !Nat.eqb_eq. reflexivity. Qed.
Lemma second_total x cs : exists r, filterR (second_ply c (Ok x)) cs = Ok r /\ incl r cs /\ (pm45 x -> In (-x) cs -> In (-x) r).
Proof.
  assert (T : forall a, exists t, second_ply c (Ok x) a = Ok t /\ (pm45 x -> a = -x -> t = true)).
  { intros a. unfold second_ply. cbn [bind]. destruct (dam_tol_rule c =? 2)%nat; [eexists; split; [reflexivity|]; intros _ ->; apply Z.eqb_refl|].
    destruct (is45 a) eqn:E; cbn [negb].
    - destruct (_ && _)%bool; eexists; (split; [reflexivity|]); [intros _ ->; apply Z.eqb_refl|reflexivity].
    - eexists; split; [reflexivity|]. intros P ->. assert (is45 (-x) = true) as Y by (apply is45_spec; unfold pm45 in *; lia). congruence. }
  induction cs as [|y cs (r & E & I & K)]; [exists []; split; [reflexivity|]; split; [intros z []|intros _ []]|]. cbn [filterR].
  destruct (T y) as (t & -> & Ht). cbn [bind]. rewrite E. cbn [bind]. eexists; split; [reflexivity|]. split.
  - destruct t; intros z Hz; [destruct Hz as [->|Hz]; [left; reflexivity|right; apply I, Hz]|right; apply I, Hz].
  - intros P [->|Hin]; [rewrite (Ht P eq_refl); left; reflexivity|]. destruct t; [right|]; apply K; auto.
Qed.

(** away from the last level the angles kept go on with the stack *)
Lemma pruning_goes_on n level hm bot top angs a : S level <> n -> level = length bot -> healthy bot ->
  pruning c n level hm bot top (set_of_angles c) = Ok (Some angs) -> In a angs -> healthy (bot ++ [a]).
Proof.
  intros Hl Lv (Fb & Cb & Db). rewrite pruning_plain. cbv zeta. destruct (Nat.eqb_spec (S level) n) as [|_]; [contradiction|]. cbn [andb].
  assert (Ab : Forall angle_ok bot) by (eapply Forall_impl; [|exact Fb]; intros x I; rewrite Forall_forall in Set_ok; apply Set_ok, I).
  intros X Ia.
  assert (Y : In a (set_of_angles c) /\ (contig c = true -> contig_stack (n_contig c) (bot ++ [a])) /\ (dam_tol c = true -> bot = [] -> pm45 a)).
  { destruct (dam_tol c && (level =? 0)%nat)%bool eqn:E1.
    { apply andb_true_iff in E1. destruct E1 as [_ E1]. apply Nat.eqb_eq in E1. destruct bot; [|cbn in Lv; lia].
      assert (I : In a (filter is45 (set_of_angles c))) by (destruct (filter is45 (set_of_angles c)); [discriminate X|injection X as <-; exact Ia]).
      apply filter_In in I. destruct I as [I1 I2]. split; [exact I1|]. split; [intros Z0; apply contig_few; cbn [app length]; specialize (Nc Z0); lia|intros _ _; apply is45_spec, I2]. }
    assert (N0 : dam_tol c = true -> bot = [] -> pm45 a).
    { intros D ->. rewrite D in E1. cbn in Lv. subst level. discriminate E1. }
    destruct (dam_tol c && ((dam_tol_rule c =? 2)%nat || (dam_tol_rule c =? 3)%nat) && (level =? 1)%nat)%bool eqn:E2.
    { apply andb_true_iff in E2. destruct E2 as [_ E2]. apply Nat.eqb_eq in E2. destruct bot as [|x [|y bot]]; cbn in Lv; try lia. change (getR [x] 0) with (Ok x) in X.
      destruct (second_total x (set_of_angles c)) as (r & E & I & _). rewrite E in X. cbn [bind] in X. assert (Ir : In a r) by (destruct r; [discriminate X|injection X as <-; exact Ia]).
      split; [apply I, Ir|]. split; [intros Z0; apply contig_few; cbn [app length]; specialize (Nc Z0); lia|exact N0]. }
    revert X.
    destruct (prune_diso_sym c false level bot top (set_of_angles c) Sy Ab Set_ok) as (p & -> & _). cbn [bind]. destruct (diso c && _)%bool; [discriminate|].
    destruct (prune_contig_sym c false hm level bot (filter p (set_of_angles c)) Sy) as (p2 & -> & G); [intros Y; split; auto|discriminate|]. cbn [bind]. destruct (contig c && _)%bool; [discriminate|].
    intros X. injection X as <-. apply filter_In in Ia. destruct Ia as [I1 I2]. split; [apply filter_In in I1; apply I1|]. split; [apply (G a I1); exact I2|exact N0]. }
  destruct Y as (Y1 & Y2 & Y3). split; [apply Forall_app; split; [exact Fb|constructor; [exact Y1|constructor]]|]. split; [exact Y2|].
  intros D x b0 E. destruct bot as [|z bot]; [injection E as <- _; apply Y3; auto|]. injection E as <- _. apply (Db D z bot eq_refl).
Qed.

(** some angle is kept when there is a way on *)
Lemma pruning_alive n level hm bot top : (2 <= n)%nat -> level = length bot -> healthy bot -> (rule23 -> n = 2%nat -> hm = false) ->
  let candidates := if (Nat.eqb (S level) n && hm)%bool then [0; 90] else set_of_angles c in
  candidates <> [] -> (forall x, In x (set_of_angles c) -> way_on c candidates x) ->
  exists angs, pruning c n level hm bot top (set_of_angles c) = Ok (Some angs) /\ angs <> [].
Proof.
  intros N2 Lv (Fb & Cb & Db) R23. rewrite pruning_plain. cbv zeta. set (last := Nat.eqb (S level) n). set (cs := if (last && hm)%bool then [0; 90] else set_of_angles c). intros Ne Way.
  destruct (dam_tol c && (level =? 0)%nat)%bool eqn:D1.
  { apply andb_true_iff in D1. destruct D1 as [D1 D2]. apply Nat.eqb_eq in D2. assert (last = false) as El by (apply Nat.eqb_neq; lia). unfold cs. rewrite El. cbn [andb].
    assert (I : In 45 (filter is45 (set_of_angles c))) by (apply filter_In; split; [apply Dm, D1|reflexivity]).
    destruct (filter is45 (set_of_angles c)) as [|y r]; [destruct I|]. eexists; split; [reflexivity|discriminate]. }
  destruct (dam_tol c && ((dam_tol_rule c =? 2)%nat || (dam_tol_rule c =? 3)%nat) && (level =? 1)%nat)%bool eqn:D2.
  { apply andb_true_iff in D2. destruct D2 as [D2 D3]. apply rule23_test in D2. apply Nat.eqb_eq in D3. pose proof D2 as [D _]. destruct bot as [|x [|y bot]]; cbn in Lv; try lia. change (getR [x] 0) with (Ok x).
    assert (Ec : cs = set_of_angles c). { unfold cs, last. destruct (Nat.eqb_spec (S level) n) as [En|En]; [|reflexivity]. rewrite R23; [reflexivity|exact D2|lia]. }
    destruct (second_total x cs) as (r & -> & _ & K). cbn [bind]. pose proof (Db D x [] eq_refl) as Px.
    assert (I : In (-x) r) by (apply K; [exact Px|]; rewrite Ec; destruct (Dm D) as [I1 I2]; destruct Px as [->| ->]; [exact I2|exact I1]).
    destruct r as [|y r]; [destruct I|]. eexists; split; [reflexivity|discriminate]. }
  assert (Ab : Forall angle_ok bot) by (eapply Forall_impl; [|exact Fb]; intros x I; rewrite Forall_forall in Set_ok; apply Set_ok, I).
  assert (Ac : Forall angle_ok cs) by (unfold cs; destruct (last && hm)%bool; [repeat constructor; unfold angle_ok; lia|exact Set_ok]).
  assert (Pick : exists a, In a cs /\ (contig c = true -> forall b0 y, bot = b0 ++ [y] -> a <> y) /\ diso_good c bot a).
  { destruct bot as [|y b0 _] using rev_ind.
    - destruct cs as [|a cs0]; [congruence|]. exists a. split; [left; reflexivity|]. split; intros _ b0 y E; destruct b0; discriminate E.
    - apply Forall_app in Fb. destruct Fb as [_ Fy]. inversion Fy; subst. destruct (Way y ltac:(assumption)) as (a & Ia & Ca & Da). exists a. split; [exact Ia|].
      split; [intros Y b1 z E; apply app_inj_tail in E; destruct E as [_ <-]; auto|intros Y b1 z E; apply app_inj_tail in E; destruct E as [_ <-]; auto]. }
  destruct Pick as (a & Ia & Ca & Da).
  destruct (prune_diso_sym c last level bot top cs Sy Ab Ac) as (p & -> & G). cbn [bind].
  assert (I1 : In a (filter p cs)) by (apply filter_In; split; [exact Ia|apply (G a Ia); exact Da]).
  assert (E1 : match filter p cs with [] => true | _ => false end = false) by (destruct (filter p cs); [destruct I1|reflexivity]).
  rewrite E1, andb_false_r.
  assert (K : exists r, prune_contig c last hm level bot (filter p cs) = Ok r /\ In a r).
  { unfold prune_contig. destruct (contig c) eqn:Ec; [|eauto]. specialize (Nc eq_refl). specialize (Cb eq_refl). specialize (Ca eq_refl). rewrite Sy. cbn [orb].
    assert (F : forall f good, (forall x, exists t, f x = Ok t /\ (t = true <-> good x)) -> good a -> exists r, filterR f (filter p cs) = Ok r /\ In a r).
    { intros f good Hf Ga. destruct (filterR_keeps f good (filter p cs) (fun x _ => Hf x)) as (q & -> & Q). eexists; split; [reflexivity|]. apply filter_In. split; [exact I1|apply (Q a I1), Ga]. }
    destruct last; cbn [negb].
    - apply (F _ (fun x => contig_stack (n_contig c) (py_from (zlen bot - Z.of_nat (n_contig c)) bot ++ (if hm then [x] else [x; x]) ++ rev (py_from (zlen bot - Z.of_nat (n_contig c)) bot)))).
      + intros x. apply internal_contig2_spec; auto.
      + replace (if hm then [a] else [a; a]) with (repeat a (if hm then 1 else 2)%nat) by (destruct hm; reflexivity).
        assert (Sf : exists b0, bot = b0 ++ py_from (zlen bot - Z.of_nat (n_contig c)) bot) by (unfold py_from; eexists; symmetry; apply firstn_skipn).
        destruct Sf as [b0 Eb]. set (bf := py_from _ bot) in *. apply mirror_other; [lia|destruct hm; lia| |].
        * rewrite Eb in Cb. apply (contig_suffix _ b0 bf Cb).
        * intros b1 y E. apply (Ca (b0 ++ b1) y). rewrite Eb, E at 1. apply app_assoc.
    - apply (F _ (fun x => contig_stack (n_contig c) (bot ++ [x]))).
      + intros x. apply external_one; auto.
      + apply contig_other; auto; lia. }
  destruct K as (r & -> & Ir). cbn [bind]. assert (match r with [] => true | _ => false end = false) as -> by (destruct r; [destruct Ir|reflexivity]). rewrite andb_false_r.
  exists r. split; [reflexivity|]. intros ->. destruct Ir.
Qed.
End Pruned.

(* ---------------- the beam ---------------- *)
Lemma all_true fs k : (k <= length fs)%nat -> (forall i, (i < k)%nat -> nth i fs false = true) -> countb (fun b => b) (firstn k fs) = k.
Proof.
  revert k. induction fs as [|f fs IH]; intros [|k] H A; cbn in *; try lia; try reflexivity. pose proof (A 0%nat ltac:(lia)) as E. cbn in E. subst f.
  unfold countb in *. cbn [filter length]. f_equal. apply IH; [lia|]. intros i Hi. apply (A (S i)). lia.
Qed.

Section Alive.
Variables (pb : problem) (e : nat).
Hypothesis Sy : sym (p_cons pb) = true.
Hypothesis Dm : dam_tol (p_cons pb) = true -> In 45 (set_of_angles (p_cons pb)) /\ In (-45) (set_of_angles (p_cons pb)).
Hypothesis N2 : (2 <= p_n pb)%nat.
Hypothesis R23 : rule23 (p_cons pb) -> p_n pb = 2%nat -> p_middle pb = false.
Hypothesis Nc : contig (p_cons pb) = true -> (2 <= n_contig (p_cons pb) <= 6)%nat.
Hypothesis Set_ok : Forall angle_ok (set_of_angles (p_cons pb)).
Hypothesis Set_ne : set_of_angles (p_cons pb) <> [].
Hypothesis Way : forall x, In x (set_of_angles (p_cons pb)) -> way_on (p_cons pb) (set_of_angles (p_cons pb)) x.
Hypothesis Way_mid : p_middle pb = true -> forall x, In x (set_of_angles (p_cons pb)) -> way_on (p_cons pb) [0; 90] x.
Hypothesis Limits : (1 <= p_local pb /\ 1 <= p_local_final pb /\ 1 <= p_global pb /\ 1 <= p_global_final pb)%nat.
Hypothesis Hlen : length (p_pdl pb) = length (p_mat pb).
Hypothesis Hthick : (p_thick pb < length (p_pdl pb))%nat.
Hypothesis Mid : p_middle pb = true -> In 0 (set_of_angles (p_cons pb)) /\ In 90 (set_of_angles (p_cons pb)).
Variable planned : list nat.
Hypothesis Seq : planned = seq 0 (length planned).
Hypothesis Np : p_n pb = length planned.
Hypothesis Kept : forall l, In l planned -> 0 <= nth l (nth (p_thick pb) (p_pdl pb) []) (-1).
Hypothesis low : forall ls l rest h, planned = ls ++ l :: rest -> reach pb (ls ++ [l]) h -> (-6666 < score_of pb e (ls ++ [l]) l h)%Q.
Hypothesis high : forall ls l rest h, planned = ls ++ l :: rest -> reach pb (ls ++ [l]) h -> (score_of pb e (ls ++ [l]) l h < 6666)%Q.

Lemma level_index ls l rest : planned = ls ++ l :: rest -> l = length ls.
Proof.
  intros Pl. assert (A : nth (length ls) planned 0%nat = l) by (rewrite Pl, app_nth2, Nat.sub_diag by lia; reflexivity).
  assert (B : (length ls < length planned)%nat) by (rewrite Pl, app_length; cbn [length]; lia). rewrite Seq, seq_nth in A by exact B. lia.
Qed.
(** below the last level the stack of a node has allowed angles and no long block *)
Lemma reach_contig : forall ls h, reach pb ls h -> forall l rest, planned = ls ++ l :: rest ->
  healthy (p_cons pb) h.
Proof.
  intros ls h R. induction R as [|ls h l a angs R IH P Ia Ind]; intros l' rest Pl.
  - split; [constructor|]. split; [|intros _ x b0 E; discriminate E]. intros _ (x & l1 & l2 & E). destruct l1; discriminate E.
  - rewrite <- app_assoc in Pl. cbn [app] in Pl. pose proof (IH l (l' :: rest) Pl) as C. pose proof (level_index ls l (l' :: rest) Pl) as Ll.
    rewrite (guide_sym pb ls h Sy Hlen Hthick) in P; [|intros k I; apply Kept; rewrite Pl; apply in_app_iff; left; exact I|apply (reach_length pb), R]. cbn [fst snd] in P.
    assert (Hl : S l <> p_n pb) by (rewrite Np, Pl, app_length; cbn [length]; lia).
    refine (pruning_goes_on _ Sy Nc Set_ok (p_n pb) l (p_middle pb) h [] angs a Hl _ C P Ia). rewrite Ll. symmetry. apply (reach_length pb), R.
Qed.

Lemma expand_grows ls l rest h olds news t t' : planned = ls ++ l :: rest -> reach pb ls h -> (forall h', In h' news -> reach pb (ls ++ [l]) h') ->
  mixed pb e ls l (h :: olds) news t -> expand pb (Nat.eqb l e) l t = Ok t' -> (length (t_obj t) <= length (t_obj t'))%nat.
Proof.
  intros Pl R Rn [E1 [E2 [oo [Lo [Bo E3]]]]] X. pose proof (reach_length _ _ _ R) as L. destruct oo as [|o oo]; [discriminate|].
  pose proof (reach_contig ls h R l rest Pl) as C.
  unfold expand in X. cbn [map app] in E1, E2, E3. rewrite E1, E2, E3 in X. fold (guide pb ls h) in X.
  assert (Kp : forall l', In l' ls -> 0 <= nth l' (nth (p_thick pb) (p_pdl pb) []) (-1)) by (intros l' I; apply Kept; rewrite Pl; apply in_app_iff; left; exact I).
  rewrite (guide_sym pb ls h Sy Hlen Hthick Kp L) in X. cbn [fst snd] in X.
  destruct (pruning_alive _ Sy Dm Nc Set_ok (p_n pb) l (p_middle pb) h [] N2 ltac:(rewrite L; apply (level_index ls l rest Pl)) C R23) as (angs & P & Ne).
  { destruct (Nat.eqb (S l) (p_n pb) && p_middle pb)%bool; [discriminate|exact Set_ne]. }
  { intros x Ix. destruct (Nat.eqb (S l) (p_n pb) && p_middle pb)%bool eqn:Em; [apply andb_true_iff in Em; apply Way_mid; [apply Em|exact Ix]|apply Way, Ix]. }
  rewrite P in X. cbn [bind] in X. unfold guard in X. destruct (existsb _ angs) eqn:Ex; cbn [bind] in X; [discriminate X|].
  assert (La : (1 <= length angs)%nat) by (destruct angs; [congruence|cbn; lia]).
  rewrite map_map in X. cbn in Lo; injection Lo as Lo. rewrite E3.
  destruct (Nat.eqb (S l) (p_n pb)).
  { unfold local_pruning in X. cbn [negb andb] in X. injection X as <-. cbn [t_obj]. cbn [length]. rewrite !app_length, !map_length. lia. }
  match type of X with local_pruning _ _ ?lim ?tt = _ => destruct (C32_local_pruning _ _ tt (length angs) lim) as [t1 [fs [E [Lf [_ [_ [Ob [Keep [Cnt _]]]]]]]]]; [..|set (limit := lim) in *] end.
  - cbn [t_ss t_obj]. rewrite !app_length, !map_length; lia.
  - cbn [t_num t_obj]. rewrite !app_length, !map_length; lia.
  - cbn [t_obj]. rewrite !app_length, !map_length; lia.
  - cbn [t_obj]. intros x Hx. rewrite !in_app_iff in Hx. destruct Hx as [[Hx|Hx]|Hx].
    + apply Bo; now right.
    + apply in_map_iff in Hx; destruct Hx as [y [<- Hy]]. apply (low _ _ rest); auto.
    + apply in_map_iff in Hx; destruct Hx as [a [<- Ha]].
      rewrite (child_numbers_of pb e ls h l a L). change (p_score pb l (map fst (num_of pb e (ls ++ [l]) (h ++ [a])))) with (score_of pb e (ls ++ [l]) l (h ++ [a])).
      apply (low _ _ rest); auto. eapply reach_snoc; eauto.
      * rewrite (guide_sym pb ls h Sy Hlen Hthick Kp L). exact P.
      * intros N. assert (existsb (fun a => match ind_angle (set_of_angles (p_cons pb)) a with Some _ => false | None => true end) angs = true) as T by (apply existsb_exists; exists a; split; [exact Ha|rewrite N; reflexivity]). congruence.
  - rewrite E in X. injection X as <-. rewrite Ob. unfold kept_entries. 
    match goal with |- context [List.combine fs ?l] => set (objs := l) in * end.
    assert (Lk : length (map snd (filter fst (List.combine fs objs))) = countb (fun b => b) fs).
    { exact (filter_fst_combine fs objs Lf). }
    rewrite Lk. set (k := (length objs - length angs)%nat) in *. rewrite <- (firstn_skipn k fs). unfold countb. rewrite filter_app, app_length. fold (countb (fun b : bool => b) (firstn k fs)). fold (countb (fun b : bool => b) (skipn k fs)).
    rewrite (all_true fs k) by (try exact Keep; unfold k; lia). rewrite Cnt.
    assert (Lo2 : length objs = (length oo + length news + length angs)%nat) by (unfold objs; cbn [t_obj]; rewrite !app_length, !map_length; reflexivity).
    assert (1 <= limit)%nat by (unfold limit; destruct (Nat.eqb l e); lia). cbn [length]. rewrite app_length, map_length. unfold k. lia.
Qed.

Lemma expand_nodes_grow ls l rest : planned = ls ++ l :: rest -> forall olds news t t',
  (forall h, In h olds -> reach pb ls h) -> (forall h, In h news -> reach pb (ls ++ [l]) h) ->
  mixed pb e ls l olds news t -> expand_nodes pb (Nat.eqb l e) l (length olds) t = Ok t' -> (length (t_obj t) <= length (t_obj t'))%nat.
Proof.
  intros Pl. induction olds as [|h olds IH]; intros news t t' R1 R2 M; cbn [length expand_nodes]; [intros X; injection X as <-; lia|].
  destruct (expand pb (Nat.eqb l e) l t) as [t1|] eqn:E; cbn [bind]; [|discriminate]. intros X.
  pose proof (expand_grows ls l rest h olds news t t1 Pl (R1 h (or_introl eq_refl)) R2 M E) as G.
  destruct (expand_mixed pb e Hlen planned low ls l rest h olds news t t1 Pl (R1 h (or_introl eq_refl)) R2 M E) as [more [M1 R3]].
  assert (G2 : (length (t_obj t1) <= length (t_obj t'))%nat); [|lia].
  apply (IH (news ++ more) t1 t'); auto.
  - intros h' I; apply R1; now right.
  - intros h' I; apply in_app_or in I; destruct I; auto.
Qed.

Lemma level_alive ls l rest obj hs t : planned = ls ++ l :: rest -> hs <> [] ->
  (forall h, In h hs -> reach pb ls h) -> (forall h, In h hs -> (-6666 < obj h)%Q) -> in_step pb e ls obj hs t ->
  exists t', level_step pb (Nat.eqb l e) l t = Ok t'.
Proof.
  intros Pl Ne R B [E1 [E2 E3]]. unfold level_step.
  assert (M : mixed pb e ls l hs [] t).
  { split; [rewrite app_nil_r; exact E1|]; split; [rewrite app_nil_r; exact E2|].
    exists (map obj hs); split; [apply map_length|]; split; [|rewrite app_nil_r; exact E3]. intros x Hx; apply in_map_iff in Hx; destruct Hx as [h [<- Hh]]; auto. }
  assert (Lt : length (t_obj t) = length hs) by (rewrite E3; apply map_length). rewrite Lt.
  destruct (expand_nodes_total pb e Sy Nc Hlen Hthick Mid planned Seq Kept low ls l rest Pl hs [] t R) as [t1 E]; [intros h []|exact M|]. rewrite E. cbn [bind].
  assert (G : (length (t_obj t) <= length (t_obj t1))%nat) by (apply (expand_nodes_grow ls l rest Pl hs [] t t1 R); [intros h []|exact M|exact E]).
  assert (Nz : length (t_obj t1) <> 0%nat) by (destruct hs; [congruence|cbn [length] in Lt; lia]).
  destruct (expand_nodes_mixed pb e Hlen planned low ls l rest Pl hs [] t t1 R) as [news [[M1 [M2 [oo [Lo [_ M3]]]]] R1]]; auto; [intros h []|].
  destruct oo; [|discriminate]. cbn [map app] in M1, M2, M3.
  destruct (C32_global_pruning _ _ t1 (if Nat.eqb l e then p_global_final pb else p_global pb)) as [_ G1].
  - rewrite M1, M3, !map_length; reflexivity.
  - rewrite M2, M3, !map_length; reflexivity.
  - intros x Hx; rewrite M3 in Hx; apply in_map_iff in Hx; destruct Hx as [y [<- Hy]]; apply (high _ _ rest); auto.
  - destruct (G1 Nz) as [t2 [fs [Eg _]]]. eauto.
Qed.

Lemma from_alive : forall levels ls obj hs t, planned = ls ++ levels -> hs <> [] ->
  (forall h, In h hs -> reach pb ls h) -> (forall h, In h hs -> (-6666 < obj h)%Q) -> in_step pb e ls obj hs t ->
  exists t', beam_from pb e levels t = Ok t'.
Proof.
  induction levels as [|l levels IH]; intros ls obj hs t Pl Ne R B I; [eexists; reflexivity|]. cbn [beam_from].
  destruct (level_alive ls l levels obj hs t Pl Ne R B I) as [t1 E]. rewrite E; cbn [bind].
  destruct (level_step_ok pb e Hlen planned low high ls l levels obj hs t t1 Pl R B I E) as [hs1 [I1 [R1 [_ N1]]]].
  apply (IH (ls ++ [l]) (score_of pb e (ls ++ [l]) l) hs1 t1); auto; [rewrite <- app_assoc; exact Pl|apply N1; destruct (Nat.eqb l e); lia|]. intros h Hh. apply (low _ _ levels); auto.
Qed.
End Alive.

From Verif Require Import Spacing Strip Objectives Levels Pipeline Properties_levels Properties_pipeline Properties_guide SpecRedesign.

(** The search of a symmetric structure finds designs, whatever the targets and the layout are,
    when every allowed angle has a way on (and, when there is a middle ply, a way on to 0 or 90)
    and no limit of branching is zero. Damage tolerance needs 45 among the angles, and its rules 2
    and 3 a thickest panel of more than three plies *)
Theorem C100_search_finds : forall a b pdl,
  well_given a b -> layout_given (b_cons b) (b_plies b) (b_ref b) pdl ->
  let c := b_cons b in
  sym c = true ->
  (dam_tol c = true -> In 45 (set_of_angles c)) ->
  (dam_tol c = true -> (dam_tol_rule c = 2 \/ dam_tol_rule c = 3)%nat -> 3 < last (b_plies b) 0) ->
  (forall x, In x (set_of_angles c) -> way_on c (set_of_angles c) x) ->
  (Z.even (nth (b_ref b) (b_plies b) 0) = true \/
   (In 0 (set_of_angles c) /\ In 90 (set_of_angles c) /\ forall x, In x (set_of_angles c) -> way_on c [0; 90] x)) ->
  (forall j, (j < length (b_plies b))%nat -> zlen (plies_of (nth j pdl [])) = nth j (b_plies b) 0) ->
  (forall r x, In r pdl -> In x r -> -1 <= x) ->
  (1 <= b_local b /\ 1 <= b_local_final b /\ 1 <= b_global b /\ 1 <= b_global_final b)%nat ->
  exists pb t, search_problem b pdl = Ok pb /\ beam pb (levels b) = Ok t /\ t_ss t <> [] /\ (length (t_ss t) <= b_global_final b)%nat.
Proof.
  intros a b pdl W G c Sy Dm D3 Way Mid Hc Hx Lim.
  assert (Ev : Z.even (nth (b_ref b) (b_plies b) 0) = true \/ In 0 (set_of_angles c) /\ In 90 (set_of_angles c)) by tauto.
  destruct (search_is_ready a b pdl W G Sy Ev Hc Hx) as (pb & E & [Uc L Th Em El Ne Kp B En L1 L2 L3 L4]).
  destruct (C99_search_answers a b pdl W G Sy Ev Hc Hx) as (pb' & E' & X). assert (pb' = pb) as -> by congruence.
  destruct X as [(t & X & N & Le)|X]; [exists pb, t; split; [exact E|]; split; [exact X|]; split; [apply N; lia|exact Le]|exfalso].
  pose proof (mk_cons_consistent _ _ (w_cons a b W)) as K. destruct (k_set _ K) as (_ & Fa & Op & _). fold c in Uc, Fa, Op.
  destruct (n_thick a b W) as [T3 Tl]. assert (Nl : length (levels b) = n_half (n_thickest b)) by (unfold levels, ply_order; fold c; rewrite Sy; apply seq_length). pose proof (n_half_spec (n_thickest b)) as Nh.
  assert (NoMid : Z.even (nth (b_ref b) (b_plies b) 0) = true -> p_middle pb = false).
  { intros Ev0. apply not_true_is_false. intros Pm. revert E Pm. unfold search_problem. cbv zeta.
    destruct (mapM _ _); cbn [bind]; [|discriminate]. destruct (mapM _ _); cbn [bind]; [|discriminate]. unfold guard. destruct (negb _); cbn [bind]; [discriminate|].
    intros Z0. injection Z0 as <-. cbn [p_middle]. intros Pm. apply existsb_exists in Pm. destruct Pm as [p [Ip Xp]].
    unfold final_panels in Ip. apply in_map_iff in Ip. destruct Ip as [n [<- In_]]. apply (In_nth _ _ 0) in In_. destruct In_ as [i [Hi <-]]. cbn in Xp.
    fold c in Xp. rewrite Sy, <- Z.negb_even, (w_parity a b W Sy i Hi), Ev0 in Xp. discriminate Xp. }
  assert (Y : exists t, beam pb (levels b) = Ok t); [|destruct Y as [t Y]; rewrite Y in X; discriminate X].
  unfold beam. refine (from_alive pb (last (levels b) 0%nat) _ _ _ _ _ _ _ _ _ _ L Th _ (levels b) El En Kp (fun l1 l l2 h P R => proj1 (B l1 l l2 h P R)) (fun l1 l l2 h P R => proj2 (B l1 l l2 h P R)) (levels b) [] (fun _ => 0%Q) [[]] (start pb) eq_refl _ _ _ _).
  - rewrite Uc; exact Sy.
  - rewrite Uc; intros D. split; [exact (Dm D)|]. apply (Op 45); [exact (Dm D)|lia].
  - rewrite En. lia.
  - intros [D R]. rewrite Uc in D, R. specialize (D3 D R). intros P2. rewrite En, Nl in P2. apply NoMid.
    pose proof (w_ref a b W) as Hr. rewrite <- (w_parity a b W Sy (length (b_plies b) - 1)%nat ltac:(lia)), <- last_is_nth. assert (last (b_plies b) 0 = 4) as -> by lia. reflexivity.
  - intros Y. rewrite Uc in *. apply (w_contig a b W Y).
  - rewrite Uc; exact Fa.
  - rewrite Uc. pose proof (k_set _ K) as (_ & _ & _ & (z & Iz & _) & _). intros Z0. fold c in Iz. rewrite Z0 in Iz. destruct Iz.
  - rewrite Uc; exact Way.
  - intros Pm. rewrite Uc. destruct Mid as [Ev0|(_ & _ & M)]; [|exact M]. rewrite (NoMid Ev0) in Pm. discriminate Pm.
  - rewrite L1, L2, L3, L4. exact Lim.
  - rewrite Uc; exact Em.
  - discriminate.
  - intros h [<-|[]]; constructor.
  - intros h _; reflexivity.
  - split; [|split; [|reflexivity]].
    + unfold start, ss_of; cbn [t_ss map]; f_equal. unfold panel_node; cbn [search nd_bot nd_top node0].
      revert L; clear; generalize (p_mat pb); induction (p_pdl pb) as [|r p IH]; intros [|m q] L; cbn in *; try lia; auto. f_equal; apply IH; lia.
    + unfold start, num_of; cbn [t_num map]; f_equal. unfold panel_node; cbn [search nd_lampam node0 counts_of].
      revert L; clear; generalize (p_mat pb); induction (p_pdl pb) as [|r p IH]; intros [|m q] L; cbn in *; try lia; auto. f_equal; apply IH; lia.
Qed.
Print Assumptions C100_search_finds.

(** the usual angles, without disorientation: every angle has a way on; with a middle ply too *)
Example C100_example : exists c, let b := bella_ex c [7; 11] 1 in
  mk_cons (Properties_redesign.args_re true true true) = Ok c /\ well_given (Properties_redesign.args_re true true true) b /\ layout_given (b_cons b) (b_plies b) (b_ref b) Properties_searchreturns.layout_odd /\
  sym c = true /\ contig c = true /\ (dam_tol c = true -> In 45 (set_of_angles c)) /\ (dam_tol c = true -> (dam_tol_rule c = 2 \/ dam_tol_rule c = 3)%nat -> 3 < last (b_plies b) 0) /\ (forall x, In x (set_of_angles c) -> way_on c (set_of_angles c) x) /\
  In 0 (set_of_angles c) /\ In 90 (set_of_angles c) /\ (forall x, In x (set_of_angles c) -> way_on c [0; 90] x) /\
  (forall j, (j < length (b_plies b))%nat -> zlen (plies_of (nth j Properties_searchreturns.layout_odd [])) = nth j (b_plies b) 0) /\
  (forall r x, In r Properties_searchreturns.layout_odd -> In x r -> -1 <= x) /\
  (1 <= b_local b /\ 1 <= b_local_final b /\ 1 <= b_global b /\ 1 <= b_global_final b)%nat.
Proof.
  destruct C99_middle_example as (c & E & W & G & Sy & _ & I0 & I90 & Hc & Hx & _). exists c. cbv zeta. split; [exact E|]. split; [exact W|]. split; [exact G|].
  assert (F : dam_tol c = false /\ contig c = true /\ diso c = false) by (clear - E; vm_compute in E; injection E as <-; repeat split). destruct F as (F1 & F2 & F3).
  assert (M : forall x, way_on c [0; 90] x).
  { intros x. destruct (Z.eq_dec x 0) as [->|N]; [exists 90|exists 0]; (split; [cbn; auto|]; split; [intros _; lia|rewrite F3; discriminate]). }
  split; [exact Sy|]. split; [exact F2|]. split; [rewrite F1; discriminate|]. split; [rewrite F1; discriminate|].
  split; [intros x _; destruct (M x) as (y & [<-|[<-|[]]] & Y); [exists 0|exists 90]; (split; [assumption|exact Y])|].
  split; [exact I0|]. split; [exact I90|]. split; [intros x _; apply M|]. split; [exact Hc|]. split; [exact Hx|]. cbn. lia.
Qed.
Print Assumptions C100_example.

(** Without a way on the search may end in the exception: with the angles -60 and 60, a limit of
    disorientation of 45 degrees and a limit of contiguity of 5 plies, no laminate of 12 plies is left *)
Definition args_stuck : cargs := {|
  a_sym := true; a_bal := true; a_oopo := false; a_dam_tol := false;
  a_rule_10_percent := false; a_rule_10_Abdalla := false; a_percent_Abdalla := 0;
  a_combine_45_135 := true; a_calc_combine_45_135 := true;
  a_percent_0 := 10; a_percent_45 := 0; a_percent_90 := 10; a_percent_135 := 0;
  a_percent_45_135 := 10;
  a_diso := true; a_contig := true; a_n_contig := 5; a_delta_angle := 45;
  a_dam_tol_rule := 1; a_set_of_angles := [60; -60]; a_min_drop := 2;
  a_pdl_spacing := true; a_covering := false; a_n_covering := 0 |}.
Lemma ex_given_stuck c : mk_cons args_stuck = Ok c -> well_given args_stuck (bella_ex c [8; 12] 1).
Proof.
  intros E. destruct (mk_cons (Properties_redesign.args_re true true true)) as [c0|] eqn:E0; [|vm_compute in E0; discriminate].
  pose proof (ex_given c0 E0) as [_ _ A3 A4 _ _ A7 A8 A9 A10 A11 A12 _ _ A15 A16]. cbn [bella_ex bella_on b_plies b_targets b_weights b_panel_weightings b_cos_sin b_save_success_rate] in *.
  pose proof E as E'. vm_compute in E'. injection E' as <-. constructor; cbn [bella_ex bella_on b_cons b_plies b_ref b_targets b_weights b_panel_weightings b_cos_sin b_save_success_rate]; try exact E; try assumption.
  - cbn; intuition discriminate.
  - cbn; lia.
  - intros _ [|[|i]] Hi; try reflexivity. cbn in Hi. lia.
  - intros _. cbn. split; [lia|reflexivity].
  - left; reflexivity.
Qed.
Theorem C100_no_way_on : exists c pb, let b := bella_ex c [8; 12] 1 in
  well_given args_stuck b /\ layout_given (b_cons b) (b_plies b) (b_ref b) layout_1 /\ sym c = true /\ dam_tol c = false /\
  Z.even (nth (b_ref b) (b_plies b) 0) = true /\ (forall x, In x (set_of_angles c) -> ~ way_on c (set_of_angles c) x) /\
  search_problem b layout_1 = Ok pb /\ beam pb (levels b) = Err (Raised NoNode).
Proof.
  destruct (mk_cons args_stuck) as [c|] eqn:E; [|vm_compute in E; discriminate]. pose proof (ex_given_stuck c E) as W.
  assert (Run : match search_problem (bella_ex c [8; 12] 1) layout_1 with Ok pb => match beam pb (levels (bella_ex c [8; 12] 1)) with Err (Raised NoNode) => True | _ => False end | _ => False end).
  { clear - E. vm_compute in E. injection E as <-. vm_compute. exact I. }
  assert (S1 : sym c = true /\ dam_tol c = false /\ contig c = true /\ diso c = true /\ delta_angle c = 45 /\ set_of_angles c = [-60; 60]) by (clear - E; vm_compute in E; injection E as <-; repeat split).
  destruct S1 as (S1 & S2 & S3 & S4 & S5 & S6).
  destruct (search_problem (bella_ex c [8; 12] 1) layout_1) as [pb|] eqn:Ep; [|destruct Run]. exists c, pb. cbv zeta.
  split; [exact W|].
  split; [constructor; [reflexivity|intros r [<-|[<-|[]]]; reflexivity|unfold dropped; cbn; lia|reflexivity|intros _ [|[|i]] Hi; try reflexivity; cbn in Hi; lia]|].
  split; [exact S1|]. split; [exact S2|]. split; [reflexivity|].
  split.
  { intros x Ix (y & Iy & N & D). specialize (N S3). destruct (D S4) as [k Hk]. rewrite S5 in Hk. rewrite S6 in Ix, Iy. cbn in Ix, Iy. destruct Ix as [<-|[<-|[]]], Iy as [<-|[<-|[]]]; lia. }
  split; [exact Ep|].
  destruct (beam pb (levels (bella_ex c [8; 12] 1))) as [t|ex] eqn:X; [destruct Run|].
  destruct ex as [r| | | | | | |]; try (destruct Run; fail). destruct r; try (destruct Run; fail); reflexivity.
Qed.
Print Assumptions C100_no_way_on.

(** damage tolerance with rule 3 *)
Definition args_dt3 : cargs := {|
  a_sym := true; a_bal := true; a_oopo := false; a_dam_tol := true;
  a_rule_10_percent := false; a_rule_10_Abdalla := false; a_percent_Abdalla := 0;
  a_combine_45_135 := true; a_calc_combine_45_135 := true;
  a_percent_0 := 10; a_percent_45 := 0; a_percent_90 := 10; a_percent_135 := 0;
  a_percent_45_135 := 10;
  a_diso := true; a_contig := true; a_n_contig := 2; a_delta_angle := 45;
  a_dam_tol_rule := 3; a_set_of_angles := [0; 45; 90; -45]; a_min_drop := 2;
  a_pdl_spacing := true; a_covering := true; a_n_covering := 2 |}.
Example C100_damtol_example : exists c, let b := bella_ex c [8; 12] 1 in
  well_given args_dt3 b /\ layout_given (b_cons b) (b_plies b) (b_ref b) layout_1 /\
  sym c = true /\ dam_tol c = true /\ dam_tol_rule c = 3%nat /\ contig c = true /\ diso c = true /\ In 45 (set_of_angles c) /\ 3 < last (b_plies b) 0 /\
  (forall x, In x (set_of_angles c) -> way_on c (set_of_angles c) x) /\ Z.even (nth (b_ref b) (b_plies b) 0) = true.
Proof.
  destruct (mk_cons args_dt3) as [c|] eqn:E; [|vm_compute in E; discriminate]. exists c.
  assert (W : well_given args_dt3 (bella_ex c [8; 12] 1)).
  { destruct (mk_cons (Properties_redesign.args_re true true true)) as [c0|] eqn:E0; [|vm_compute in E0; discriminate].
    pose proof (ex_given c0 E0) as [_ _ A3 A4 _ _ A7 A8 A9 A10 A11 A12 _ _ A15 A16]. cbn [bella_ex bella_on b_plies b_targets b_weights b_panel_weightings b_cos_sin b_save_success_rate] in *.
    pose proof E as E'. vm_compute in E'. injection E' as <-. constructor; cbn [bella_ex bella_on b_cons b_plies b_ref b_targets b_weights b_panel_weightings b_cos_sin b_save_success_rate]; try exact E; try assumption.
    - cbn; intuition discriminate.
    - cbn; lia.
    - intros _ [|[|i]] Hi; try reflexivity. cbn in Hi. lia.
    - intros _. cbn. split; [lia|reflexivity].
    - left; reflexivity. }
  assert (S1 : sym c = true /\ dam_tol c = true /\ dam_tol_rule c = 3%nat /\ contig c = true /\ diso c = true /\ delta_angle c = 45 /\ set_of_angles c = [-45; 0; 45; 90]) by (clear - E; vm_compute in E; injection E as <-; repeat split).
  destruct S1 as (S1 & S2 & S3 & S4 & S5 & S6 & S7). cbv zeta. split; [exact W|].
  split; [constructor; [reflexivity|intros r [<-|[<-|[]]]; reflexivity|unfold dropped; cbn; lia|reflexivity|intros _ [|[|i]] Hi; try reflexivity; cbn in Hi; lia]|].
  split; [exact S1|]. split; [exact S2|]. split; [exact S3|]. split; [exact S4|]. split; [exact S5|]. split; [rewrite S7; cbn; auto|]. split; [cbn; lia|].
  split; [|reflexivity]. unfold way_on, diso_ok. rewrite S6, S7. intros x Hx. cbn in Hx. destruct Hx as [<-|[<-|[<-|[<-|[]]]]].
  - exists 0. split; [cbn; auto|]. split; [intros _; lia|]. intros _. exists 0. cbn. lia.
  - exists 45. split; [cbn; auto|]. split; [intros _; lia|]. intros _. exists 0. cbn. lia.
  - exists 0. split; [cbn; auto|]. split; [intros _; lia|]. intros _. exists 0. cbn. lia.
  - exists 45. split; [cbn; auto|]. split; [intros _; lia|]. intros _. exists 0. cbn. lia.
Qed.

From Verif Require Import Final Properties_final.
From Verif Require Properties_layoutreturns Properties_repairreturns.
(** so the run of such a layout reports a design (even panels, conditions of C98 on the repair) *)
Theorem C100_layout_returns : forall a b pdl,
  well_given a b -> layout_given (b_cons b) (b_plies b) (b_ref b) pdl ->
  let c := b_cons b in
  sym c = true -> Z.even (nth (b_ref b) (b_plies b) 0) = true ->
  (dam_tol c = true -> In 45 (set_of_angles c)) ->
  (dam_tol c = true -> (dam_tol_rule c = 2 \/ dam_tol_rule c = 3)%nat -> 3 < last (b_plies b) 0) ->
  (forall x, In x (set_of_angles c) -> way_on c (set_of_angles c) x) ->
  (forall j, (j < length (b_plies b))%nat -> zlen (plies_of (nth j pdl [])) = nth j (b_plies b) 0) ->
  (forall r x, In r pdl -> In x r -> -1 <= x) ->
  (1 <= b_local b /\ 1 <= b_local_final b /\ 1 <= b_global b /\ 1 <= b_global_final b)%nat ->
  Properties_layoutreturns.ready_oracles b ->
  (forall pb t, search_problem b pdl = Ok pb -> beam pb (levels b) = Ok t ->
    (forall d s, In d (t_ss t) -> joined c (panel_of c (nth (b_ref b) (b_plies b) 0)) (nth (b_ref b) d ([], [])) s -> Properties_repairreturns.plain_repair c (b_rparams b) s) /\
    (exists d r q, In d (t_ss t) /\ repaired_to c (final_panels b) (repair_of b pdl) d r /\
       valued c (final_panels b) (b_lampam b) (b_pen10 b) (b_targets b) (b_weights b) (b_panel_weightings b) (b_coeffs b) r q /\ (q < 10000000000)%Q)) ->
  exists o, optimise_layout b pdl = Ok (Some o) /\ (o_total o < 10000000000)%Q /\ delivered b o.
Proof.
  intros a b pdl W G c Sy Ev D1 D2 Way Hc Hx Lim O Y. destruct (C100_search_finds a b pdl W G Sy D1 D2 Way (or_introl Ev) Hc Hx Lim) as (pb & t & E & X & _).
  destruct (C99_layout_answers a b pdl W G Sy Ev Hc Hx O Y) as [R|R]; [exact R|exfalso].
  unfold optimise_layout in R. rewrite E in R. cbn [bind] in R. rewrite X in R. cbn [bind] in R. rewrite (w_save a b W) in R.
  destruct (Y pb t E X) as [Pl Rp]. destruct O as [O1 O2 O3 O4 O5].
  destruct (proj2 (Properties_layoutreturns.C98_layout_returns a b pdl pb t W G Sy Ev Hc Hx E X O1 O2 O3 O4 O5 Pl) Rp) as (o & Eo & _).
  unfold optimise_layout in Eo. rewrite E in Eo. cbn [bind] in Eo. rewrite X in Eo. cbn [bind] in Eo. rewrite (w_save a b W) in Eo. rewrite R in Eo. discriminate Eo.
Qed.
Print Assumptions C100_layout_returns.
(** the conditions that C99_example does not give *)
Example C100_layout_example : exists c, let b := bella_ex c [8; 12] 1 in
  mk_cons (Properties_redesign.args_re true true true) = Ok c /\ dam_tol c = false /\ contig c = true /\
  (forall x, In x (set_of_angles c) -> way_on c (set_of_angles c) x) /\
  (1 <= b_local b /\ 1 <= b_local_final b /\ 1 <= b_global b /\ 1 <= b_global_final b)%nat.
Proof.
  destruct C100_example as (c & E & _ & _ & _ & C & _ & _ & Way & _). exists c. cbv zeta. split; [exact E|].
  split; [clear - E; vm_compute in E; injection E as <-; reflexivity|]. split; [exact C|]. split; [exact Way|]. cbn. lia.
Qed.
