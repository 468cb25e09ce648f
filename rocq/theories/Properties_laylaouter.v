(* Properties_laylaouter.v - C80: an outer step of the single-laminate optimiser. *)
From Coq Require Import Lqa.
From Verif Require Import Base Divers DiversProofs Constraints Guidelines SpecGuidelines GuidelinesProofs PdlTools GroupFilters Properties_filters Pruning
  Moments MomentsProofs Search SearchProofs Properties_search Layla LaylaSearch Properties_laylabeam.
Local Open Scope Z_scope.

(* ------------------------------------------------------------------ *)
(** ** Specification *)

(** a group: the plies it places, its size, its part of the assumed lamination parameters *)
Definition group := (list nat * Z * lampam)%type.
Definition g_levels (g : group) : list nat := fst (fst g).
Definition g_size (g : group) : nat := Z.to_nat (snd (fst g)).
Definition g_assumed (g : group) : lampam := snd g.

(** [hs]: the angles chosen in every group. The plies below and above after these choices *)
Definition lower (sym : bool) (hs : list (list Z)) : list Z := concat (map (bottom_of sym) hs).
Definition upper (sym : bool) (hs : list (list Z)) : list Z := concat (rev (map (top_of sym) hs)).
(** the angles of every group were left by the pruning, given the plies of the groups before *)
Fixpoint walk (pb : lproblem) (groups : list group) (below above : list Z) (hs : list (list Z)) : Prop :=
  match groups, hs with
  | [], [] => True
  | g :: groups', h :: hs' =>
    length h = g_size g /\ path pb below above (g_levels g) h /\
    walk pb groups' (below ++ bottom_of (sym (l_cons pb)) h) (top_of (sym (l_cons pb)) h ++ above) hs'
  | _, _ => False
  end.
Definition assumed_total (groups : list group) (q : nat) : Q := sumQ (map (fun g => g_assumed g q) groups).
Fixpoint placed (pb : lproblem) (groups : list group) (hs : list (list Z)) (q : nat) : Q :=
  match groups, hs with
  | g :: groups', h :: hs' => (contribution (l_rows pb) (firstn (g_size g) (g_levels g)) h q + placed pb groups' hs' q)%Q
  | _, _ => 0%Q
  end.
(** the number of plies of [h] of the j-th angle *)
Definition number_of (c : cons) (h : list Z) (j : nat) : Q := sumQ (map (weight_of c j) h).

Lemma sumQ_app l m : (sumQ (l ++ m) == sumQ l + sumQ m)%Q.
Proof. induction l as [|x l IH]; [change (sumQ ([] ++ m)) with (sumQ m); change (sumQ []) with 0%Q; ring|]. change (sumQ ((x :: l) ++ m)) with (x + sumQ (l ++ m))%Q. change (sumQ (x :: l)) with (x + sumQ l)%Q. rewrite IH. ring. Qed.
Lemma sumQ_cons x l : sumQ (x :: l) = (x + sumQ l)%Q.
Proof. reflexivity. Qed.
Lemma number_app c a b j : (number_of c (a ++ b) j == number_of c a j + number_of c b j)%Q.
Proof. unfold number_of. rewrite map_app. apply sumQ_app. Qed.

(** ** Between the groups *)
Theorem C80_between_groups : forall pb (g1 g2 : list group) lp counts below above r,
  let c := l_cons pb in
  (forall g, In g g1 -> 1 <= snd (fst g)) -> g2 <> [] ->
  l_groups pb (g1 ++ g2) lp counts below above = Ok r ->
  exists hs lp' counts', walk pb g1 below above hs /\
    l_groups pb g2 lp' counts' (below ++ lower (sym c) hs) (upper (sym c) hs ++ above) = Ok r /\
    (forall q, lp' q == lp q - assumed_total g1 q + placed pb g1 hs q)%Q /\
    length counts' = length counts /\
    (forall j, (j < length counts)%nat -> nth j counts' 0 == nth j counts 0 + number_of c (concat hs) j)%Q.
Proof.
  intros pb g1 g2 lp counts below above r c. revert lp counts below above. induction g1 as [|[[levels size] assumed] g1 IH]; intros lp counts below above Hs Hn H.
  - exists [], lp, counts. split; [exact I|]. cbn [app] in H. unfold lower, upper. cbn [map concat rev]. rewrite app_nil_r. split; [exact H|].
    split; [intros q; unfold assumed_total; cbn [placed map]; change (sumQ []) with 0%Q; ring|]. split; [reflexivity|].
    intros j Hj. unfold number_of. cbn [concat map]. change (sumQ []) with 0%Q. ring.
  - assert (E : l_groups pb (((levels, size, assumed) :: g1) ++ g2) lp counts below above =
      do r <- l_beam_search pb false 0 (Z.to_nat size) below above levels (lampam_sub lp assumed) counts;
      let nd := snd r in l_groups pb (g1 ++ g2) (ln_lampam nd) (ln_counts nd) (below ++ ln_bot nd) (ln_top nd ++ above)).
    { change (((levels, size, assumed) :: g1) ++ g2) with ((levels, size, assumed) :: (g1 ++ g2)). destruct (g1 ++ g2) eqn:Q; [destruct g1, g2; try discriminate; congruence|reflexivity]. }
    pose proof (eq_trans (eq_sym E) H) as H2. clear E H. rename H2 into H. apply bind_inv in H as [[leaves best] [Bm H]]. cbn [snd] in H. cbv zeta in H.
    assert (Hsz : 1 <= size) by (apply (Hs (levels, size, assumed)); now left).
    destruct (leaves_level pb false 0 (Z.to_nat size) below above levels _ counts leaves best ltac:(lia) Bm) as [[Hb _] Lv].
    destruct (Lv best Hb) as [h [Hl [[[P [B [T [L C]]]] E] _]]]. unfold at_end in E. cbn [andb] in E.
    destruct (IH (ln_lampam best) (ln_counts best) (below ++ ln_bot best) (ln_top best ++ above)) as [hs [lp' [counts' [W [G [Q1 [Q2 Q3]]]]]]]; auto.
    { intros g Hg. apply Hs. now right. }
    exists (h :: hs), lp', counts'. split; [|split; [|split; [|split]]].
    + cbn [walk]. unfold g_levels, g_size; cbn [fst snd]. split; [exact Hl|]. split; [exact P|]. rewrite <- B, <- T. exact W.
    + unfold lower, upper in *. cbn [map concat rev]. rewrite concat_app. cbn [concat]. rewrite app_nil_r. fold c in B, T. rewrite <- B, <- T, <- !app_assoc. rewrite <- !app_assoc in G. exact G.
    + intros q. rewrite (Q1 q), (E q). cbn [placed]. unfold assumed_total, lampam_sub, g_levels, g_size, g_assumed. cbn [map fst snd]. rewrite sumQ_cons, Hl. ring.
    + rewrite Q2. exact L.
    + intros j Hj. rewrite Q3 by (rewrite L; exact Hj). rewrite C by exact Hj. cbn [concat]. rewrite number_app.
      unfold plies_of. cbn [Nat.eqb negb andb]. fold c. fold (number_of c h j). ring.
Qed.
Print Assumptions C80_between_groups.

(** with the sum of all the assumed parameters at the start, the search of a group works on the
    plies placed so far and what is assumed of the later groups and of itself *)
Theorem C80_assumed : forall pb (g1 g2 : list group) counts below above r,
  let groups := g1 ++ g2 in
  (forall g, In g g1 -> 1 <= snd (fst g)) -> g2 <> [] ->
  l_groups pb groups (lampam_sum (map g_assumed groups)) counts below above = Ok r ->
  exists hs lp' counts', walk pb g1 below above hs /\
    l_groups pb g2 lp' counts' (below ++ lower (sym (l_cons pb)) hs) (upper (sym (l_cons pb)) hs ++ above) = Ok r /\
    (forall q, lp' q == placed pb g1 hs q + assumed_total g2 q)%Q.
Proof.
  intros pb g1 g2 counts below above r groups Hs Hn H.
  destruct (C80_between_groups pb g1 g2 _ counts below above r Hs Hn H) as [hs [lp' [counts' [W [G [Q1 _]]]]]].
  exists hs, lp', counts'. split; [exact W|]. split; [exact G|]. intros q. rewrite (Q1 q).
  assert (S1 : forall l, (lampam_sum (map g_assumed l) q == assumed_total l q)%Q).
  { induction l as [|x l IH]; [reflexivity|]. cbn [map lampam_sum]. unfold assumed_total in *. cbn [map]. rewrite sumQ_cons. unfold lampam_add. rewrite IH. reflexivity. }
  rewrite S1. unfold groups, assumed_total. rewrite map_app, sumQ_app. ring.
Qed.
Print Assumptions C80_assumed.

(* ------------------------------------------------------------------ *)
(** ** The result of a step *)
Definition penalties_not_negative (pb : lproblem) : Prop :=
  ((forall x, 0 <= l_pen_10 pb x) /\ (forall l x, 0 <= l_pen_bal pb l x) /\ (forall l x, 0 <= l_pen_ipo pb l x) /\ (forall l x, 0 <= l_pen_oopo pb l x) /\
   0 <= l_c10 pb /\ 0 <= l_cbal pb /\ 0 <= l_coopo pb)%Q.

Lemma full_counts_spec pb : forall ss ct0 ct,
  fold_left (fun (acc : result (list Q)) (a : Z) =>
    do ct <- acc;
    match ind_angle (set_of_angles (l_cons pb)) a with
    | Some k => Ok (upd k (nth k ct 0 + 1)%Q ct)
    | None => Err KeyError
    end) ss (Ok ct0) = Ok ct ->
  length ct = length ct0 /\ (forall j, (j < length ct0)%nat -> nth j ct 0 == nth j ct0 0 + number_of (l_cons pb) ss j)%Q /\
  (forall a, In a ss -> ind_angle (set_of_angles (l_cons pb)) a <> None).
Proof.
  induction ss as [|a ss IH]; intros ct0 ct H; cbn [fold_left] in H.
  - injection H as <-. split; [reflexivity|]. split; [intros j Hj; unfold number_of; cbn [map]; change (sumQ []) with 0%Q; ring|intros a []].
  - cbn [bind] in H. destruct (ind_angle (set_of_angles (l_cons pb)) a) as [k|] eqn:E.
    + destruct (IH _ _ H) as [H1 [H2 H3]]. rewrite upd_length in H1, H2. split; [exact H1|]. split.
      * intros j Hj. rewrite H2 by exact Hj. rewrite nth_upd. unfold number_of. cbn [map]. rewrite sumQ_cons. unfold weight_of at 2, is_angle. rewrite E.
        destruct (Nat.eqb_spec k j) as [->|N]; cbn [andb]; [destruct (Nat.ltb_spec j (length ct0)); [|lia]|]; ring.
      * intros b [<-|Hb]; [congruence|auto].
    + exfalso. clear -H. assert (K : forall l, fold_left (fun (acc : result (list Q)) (a : Z) =>
        do ct <- acc; match ind_angle (set_of_angles (l_cons pb)) a with Some k => Ok (upd k (nth k ct 0 + 1)%Q ct) | None => Err KeyError end) l (Err KeyError) = Err KeyError).
      { induction l as [|x l IH]; [reflexivity|]. cbn [fold_left bind]. exact IH. }
      rewrite K in H. discriminate.
Qed.

(** the stack of a step: angles left by the pruning in every group, put together to a laminate of
    the right size, repaired, accepted by the lay-up rules, with its own lamination parameters *)
Theorem C80_stack : forall pb fin levels sizes assumed ss lp obj stats,
  let c := l_cons pb in
  penalties_not_negative pb -> sizes <> [] -> (forall s, In s sizes -> 1 <= s) -> length levels = length sizes -> length assumed = length sizes ->
  l_outer_step pb fin levels sizes assumed = Ok (ss, lp, obj, stats) ->
  exists hs h, walk pb (List.combine (List.combine levels sizes) assumed) [] [] (hs ++ [h]) /\
    let full := laminate (sym c) (l_n pb) (lower (sym c) hs) (upper (sym c) hs) h in
    length full = l_n pb /\ l_repair pb full = Ok (ss, true) /\ l_gate pb ss = Ok tt /\ lp = l_lampam_of pb ss.
Proof.
  intros pb fin levels sizes assumed ss lp obj stats c [Z1 [Z2 [Z3 [Z4 [Z5 [Z6 Z7]]]]]] Ne Hs L1 L2 H. unfold l_outer_step in H.
  apply bind_inv in H as [[leaves best] [G H]]. cbn [snd fst] in H. apply bind_inv in H as [ct [Ct H]]. apply bind_inv in H as [o [_ H]]. injection H as <- <- _ _.
  set (groups := List.combine (List.combine levels sizes) assumed) in *.
  assert (Lg : length groups = length sizes) by (unfold groups; rewrite !combine_length; lia).
  destruct (exists_last (l := groups)) as [g1 [g Eg]]; [intros Q; rewrite Q in Lg; destruct sizes; [congruence|discriminate]|].
  assert (Gs : forall x, In x groups -> 1 <= snd (fst x)).
  { intros [[a b] d] Hx. unfold groups in Hx. apply in_combine_l in Hx. apply in_combine_r in Hx. apply Hs. exact Hx. }
  rewrite Eg in G. destruct (C80_between_groups pb g1 [g] _ _ [] [] _ (fun x Hx => Gs x ltac:(rewrite Eg; apply in_or_app; now left)) ltac:(discriminate) G) as [hs [lp' [counts' [W [G2 _]]]]].
  destruct g as [[lv sz] asm]. cbn [l_groups] in G2. unfold l_middle in G2. fold c in G2.
  assert (Hsz : 1 <= sz) by (apply (Gs (lv, sz, asm)); rewrite Eg; apply in_or_app; right; now left).
  destruct (C79_last_group pb (Z.to_nat sz) _ _ lv _ _ leaves best ltac:(lia) G2) as [A B].
  destruct (C79_leaves pb true _ (Z.to_nat sz) _ _ lv _ _ leaves best ltac:(lia) G2) as [Hb _].
  destruct (A best Hb) as [h [Hl [P [Lf [Rp Ok_]]]]]. rewrite (B Z1 Z2 Z3 Z4 Z5 Z6 Z7) in Rp, Ok_. destruct (Ok_ eq_refl) as [Ga Lp].
  exists hs, h. cbn [app] in P, Lf, Rp. rewrite app_nil_r in P, Lf, Rp. split; [|cbv zeta; auto].
  rewrite Eg. clear -W P Hl. fold c in P.
  assert (Gen : forall g1 hs below above, walk pb g1 below above hs -> path pb (below ++ lower (sym c) hs) (upper (sym c) hs ++ above) lv h ->
    walk pb (g1 ++ [(lv, sz, asm)]) below above (hs ++ [h])).
  { clear g1 hs W P. induction g1 as [|x g1 IH]; intros [|y hs] below above W P; cbn [walk app] in *; try contradiction.
    - unfold lower, upper in P. cbn [map concat rev app] in P. rewrite app_nil_r in P. unfold g_levels, g_size; cbn [fst snd]. auto.
    - destruct W as [W1 [W2 W3]]. split; [exact W1|]. split; [exact W2|]. apply IH; [exact W3|].
      unfold lower, upper in *. cbn [map concat rev] in P. rewrite concat_app in P. cbn [concat] in P. rewrite app_nil_r in P. rewrite <- !app_assoc in *. exact P. }
  apply Gen; [exact W|]. cbn [app]. rewrite app_nil_r. exact P.
Qed.
Print Assumptions C80_stack.

(** its objective: that of the stack with its own ply counts; 1e10 when the ten percent rule is
    still violated *)
Theorem C80_objective : forall pb fin levels sizes assumed ss lp obj stats,
  let c := l_cons pb in
  l_outer_step pb fin levels sizes assumed = Ok (ss, lp, obj, stats) ->
  exists counts, length counts = length (set_of_angles c) /\ (forall j, (j < length counts)%nat -> nth j counts 0 == number_of c ss j)%Q /\
    (forall a, In a ss -> ind_angle (set_of_angles c) a <> None) /\
    obj = (if (rule_10_percent c && negb (Qeq_bool (f_pen_10 fin counts) 0))%bool then 10000000000 # 1
           else calc_obj_multi_ss (f_objective fin lp) (f_pen_10 fin counts) (l_max (f_pen_bal fin counts) (f_pen_ipo fin lp)) (f_pen_oopo fin lp) (l_c10 pb) (l_cbal pb) (l_coopo pb))%Q.
Proof.
  intros pb fin levels sizes assumed ss lp obj stats c H. unfold l_outer_step in H.
  apply bind_inv in H as [[leaves best] [G H]]. cbn [snd fst] in H. apply bind_inv in H as [ct [Ct H]]. apply bind_inv in H as [o [O H]]. injection H as <- <- <- _.
  apply full_counts_spec in Ct as [C1 [C2 C3]]. rewrite repeat_length in C1, C2. exists ct. split; [exact C1|]. split; [|split; [exact C3|]].
  - intros j Hj. rewrite C1 in Hj. rewrite C2 by exact Hj. rewrite nth_repeat. fold c. ring.
  - fold c in O. destruct (rule_10_percent c && _)%bool; [injection O as <-; reflexivity|].
    destruct (ipo c && _)%bool; [discriminate|]. destruct (ipo c && _)%bool; [discriminate|]. injection O as <-. reflexivity.
Qed.
Print Assumptions C80_objective.

(** a step whose result still has an in-plane orthotropy penalty ends with an exception: an
    attribute is missing *)
Theorem C80_orthotropy_refuted : forall pb fin levels sizes assumed r counts,
  l_groups pb (List.combine (List.combine levels sizes) assumed) (lampam_sum assumed) (repeat 0%Q (length (set_of_angles (l_cons pb)))) [] [] = Ok r ->
  l_full_counts pb (ln_final (snd r)) = Ok counts ->
  ipo (l_cons pb) = true -> (~ f_pen_ipo fin (ln_lampam (snd r)) == 0 \/ ~ f_pen_bal fin counts == 0)%Q -> (f_pen_10 fin counts == 0)%Q ->
  exists e, l_outer_step pb fin levels sizes assumed = Err e.
Proof.
  intros pb fin levels sizes assumed r counts G Ct Hi Hp H10. unfold l_outer_step. rewrite G. cbn [bind]. cbv zeta. rewrite Ct. cbn [bind].
  rewrite (proj2 (Qeq_bool_iff _ _) H10), Hi. cbn [negb andb]. rewrite andb_false_r.
  destruct (Qeq_bool (f_pen_ipo fin (ln_lampam (snd r))) 0) eqn:E1; cbn [negb]; [|cbn [bind]; eauto].
  apply Qeq_bool_iff in E1. destruct Hp as [Hp|Hp]; [contradiction|].
  destruct (Qeq_bool (f_pen_bal fin counts) 0) eqn:E2; cbn [negb]; [apply Qeq_bool_iff in E2; contradiction|cbn [bind]; eauto].
Qed.
Print Assumptions C80_orthotropy_refuted.

(* ------------------------------------------------------------------ *)
(** ** Where the plies of the groups end *)

Lemma every_other_app : forall a b t, every_other t (a ++ b) = every_other t a ++ every_other (if Nat.even (length a) then t else negb t) b.
Proof.
  induction a as [|x a IH]; intros b t; [reflexivity|]. cbn [app length every_other]. rewrite Nat.even_succ, <- Nat.negb_even.
  destruct t; rewrite IH; destruct (Nat.even (length a)); reflexivity.
Qed.
Lemma every_other_nth : forall h t k d, nth k (every_other t h) d = nth (2 * k + (if t then 0 else 1)) h d.
Proof.
  assert (S : forall m h t k d, (length h <= m)%nat -> nth k (every_other t h) d = nth (2 * k + (if t then 0 else 1)) h d).
  { induction m as [|m IH]; intros h t k d L; [destruct h; [cbn; destruct k; destruct t; reflexivity|cbn in L; lia]|].
    destruct h as [|x h]; [cbn [every_other]; destruct k; destruct t; reflexivity|]. cbn [every_other length] in *. destruct t.
    - destruct k as [|k]; [reflexivity|]. cbn [nth]. rewrite IH by lia. replace (2 * S k + 0)%nat with (S (2 * k + 1)) by lia. reflexivity.
    - rewrite IH by lia. replace (2 * k + 1)%nat with (S (2 * k + 0)) by lia. reflexivity. }
  intros h t k d. apply (S (length h)). lia.
Qed.
Lemma every_other_length : forall h t, length (every_other t h) = ((length h + (if t then 1 else 0)) / 2)%nat.
Proof.
  induction h as [|x h IH]; intros t; [destruct t; reflexivity|]. cbn [every_other length]. destruct t.
  - cbn [length]. rewrite IH. replace (S (length h) + 1)%nat with (length h + 1 * 2)%nat by lia. rewrite Nat.div_add by lia. rewrite Nat.add_0_r. lia.
  - rewrite IH. f_equal. lia.
Qed.

(** symmetric laminates: the angle chosen for the l-th ply is the l-th ply from the bottom and from
    the top *)
Theorem C80_symmetric_positions : forall n hs h, let all := concat hs ++ h in let full := laminate true n (lower true hs) (upper true hs) h in
  length full = n -> length all = n_half n ->
  forall l, (l < length all)%nat -> nth l full 0 = nth l all 0 /\ nth (n - 1 - l) full 0 = nth l all 0.
Proof.
  intros n hs h all full Lf La l Hl. unfold full, laminate in *.
  assert (Lo : lower true hs = concat hs) by (unfold lower, bottom_of; rewrite map_id; reflexivity). rewrite Lo in *. fold all in Lf |- *. cbv zeta in Lf |- *.
  split; [apply app_nth1; exact Hl|]. destruct (n_half_spec n) as [H1 H2].
  destruct (Nat.lt_ge_cases (n - 1 - l) (length all)) as [Q|Q].
  - rewrite app_nth1 by exact Q. f_equal. lia.
  - rewrite app_nth2 by exact Q. rewrite rev_nth by (rewrite firstn_length; lia). rewrite firstn_length.
    replace (Nat.min (n - length all) (length all) - S (n - 1 - l - length all))%nat with l by lia.
    transitivity (nth l (firstn (n - length all) all ++ skipn (n - length all) all) 0); [|rewrite firstn_skipn; reflexivity].
    rewrite app_nth1; [reflexivity|]. rewrite firstn_length. lia.
Qed.
Print Assumptions C80_symmetric_positions.

(** asymmetric laminates: when all the groups but the last one have an even size, the k-th angle is
    that of the k-th ply in the order of the search *)
Theorem C80_asymmetric_positions_partial : forall n hs h, let all := concat hs ++ h in let full := laminate false n (lower false hs) (upper false hs) h in
  length all = n -> (forall g, In g hs -> Nat.even (length g) = true) ->
  length full = n /\ forall k, (k < n)%nat -> nth (nth k (ply_order false n) 0%nat) full 0 = nth k all 0.
Proof.
  intros n hs h all full La Hev.
  assert (E : full = every_other true all ++ rev (every_other false all)).
  { assert (C : lower false hs = every_other true (concat hs) /\ upper false hs = rev (every_other false (concat hs)) /\ Nat.even (length (concat hs)) = true).
    { clear La all full h. unfold lower, upper, bottom_of, top_of. induction hs as [|g hs IH]; [repeat split|]. cbn [map concat rev].
      destruct IH as [I1 [I2 I3]]; [intros x Hx; apply Hev; now right|].
      assert (Eg : Nat.even (length g) = true) by (apply Hev; now left).
      rewrite !every_other_app, Eg, I1, concat_app, I2. cbn [concat]. rewrite app_nil_r, rev_app_distr. split; [reflexivity|]. split; [reflexivity|].
      rewrite app_length, Nat.even_add, Eg, I3. reflexivity. }
    destruct C as [C1 [C2 C3]]. unfold full, laminate, all. rewrite C1, C2, !every_other_app, C3. unfold bottom_of, top_of.
    rewrite rev_app_distr, <- !app_assoc. reflexivity. }
  clear Hev. clearbody full. subst full. pose proof (every_other_length all true) as L1. pose proof (every_other_length all false) as L2. rewrite La in L1, L2. rewrite Nat.add_0_r in L2.
  pose proof (Nat.div_mod n 2 ltac:(lia)). pose proof (Nat.div_mod (n + 1) 2 ltac:(lia)). pose proof (Nat.mod_upper_bound n 2 ltac:(lia)). pose proof (Nat.mod_upper_bound (n + 1) 2 ltac:(lia)).
  split; [rewrite app_length, rev_length; lia|]. intros k Hk. rewrite ply_order_nth by exact Hk.
  pose proof (Nat.div_mod k 2 ltac:(lia)). pose proof (Nat.mod_upper_bound k 2 ltac:(lia)).
  destruct (Nat.even k) eqn:Ek.
  - apply Nat.even_spec in Ek as [m ->]. rewrite (Nat.mul_comm 2 m) in *. rewrite Nat.div_mul by lia. rewrite app_nth1 by lia. rewrite every_other_nth. f_equal. lia.
  - assert (Eo : Nat.odd k = true) by (rewrite <- Nat.negb_even, Ek; reflexivity). apply Nat.odd_spec in Eo as [m ->].
    assert (D : ((2 * m + 1) / 2)%nat = m) by (symmetry; apply (Nat.div_unique (2 * m + 1) 2 m 1); lia). rewrite D in *.
    rewrite app_nth2 by lia. rewrite rev_nth by lia. rewrite every_other_nth. f_equal. lia.
Qed.
Print Assumptions C80_asymmetric_positions_partial.

(** after a group of an odd size the sides are swapped: the angles chosen with the moments of the
    plies of one side are placed on the other *)
Theorem C80_asymmetric_positions_refuted :
  ~ (forall n hs h, let all := concat hs ++ h in let full := laminate false n (lower false hs) (upper false hs) h in
       length all = n -> forall k, (k < n)%nat -> nth (nth k (ply_order false n) 0%nat) full 0 = nth k all 0).
Proof.
  intros H. specialize (H 5%nat [[0; 90; 45]] [60; 30] eq_refl 3%nat ltac:(lia)). vm_compute in H. discriminate.
Qed.
Print Assumptions C80_asymmetric_positions_refuted.

(** two groups of two plies each, an odd number of plies *)
Definition fin_ex : lfinal := {| f_objective := fun lp => (10 - lp 0%nat * (1 # 90))%Q; f_pen_10 := fun _ => 0%Q; f_pen_bal := fun _ => 0%Q; f_pen_ipo := fun _ => 0%Q; f_pen_oopo := fun _ => 0%Q |}.
Example C80_example :
  match l_outer_step (pb_ex (fun l => Ok (l, true)) 3 7) fin_ex [[0; 1]; [2; 3]]%nat [2; 2] [lampam_zero; lampam_zero] with
  | Ok (ss, lp, obj, stats) => ss = [45; 90; -45; 90; -45; 90; 45] /\ stats = (4, 4, 4)%nat
  | Err _ => False
  end.
Proof. vm_compute. auto. Qed.
Lemma C80_example_hypotheses : penalties_not_negative (pb_ex (fun l => Ok (l, true)) 3 7).
Proof. unfold penalties_not_negative. repeat split; intros; cbn [pb_ex l_pen_10 l_pen_bal l_pen_ipo l_pen_oopo l_c10 l_cbal l_coopo]; try apply Qabs_nonneg; lra. Qed.
