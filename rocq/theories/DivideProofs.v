(* DivideProofs.v - specification and lemmas for Divide.v *)
From Verif Require Import Base Uniq Divers DiversProofs Divide.
Local Open Scope Z_scope.

(* ------------------------------------------------------------------ *)
(** * Specification *)

(** [l] divides [h] plies into at least one group of an allowed size *)
Definition division (g : sizes) (h : Z) (l : list Z) : Prop :=
  l <> [] /\ (forall x, In x l -> g_min g <= x <= g_max g) /\ sumZ l = h.

(* ------------------------------------------------------------------ *)
(** * sums *)
Lemma sumZ_repeat x n : sumZ (repeat x n) = Z.of_nat n * x.
Proof. induction n as [|n IH]; [reflexivity|]. cbn [repeat]; rewrite sumZ_cons, IH; lia. Qed.
Lemma sumZ_upd l i v : (i < length l)%nat -> sumZ (upd i v l) = sumZ l - nth i l 0 + v.
Proof.
  revert i; induction l as [|a t IH]; intros [|i] H; cbn [length upd nth] in *; try lia; rewrite !sumZ_cons; try lia.
  rewrite IH by lia; lia.
Qed.
Lemma sumZ_le_const l c : (forall x, In x l -> x <= c) -> sumZ l <= zlen l * c.
Proof.
  unfold zlen; induction l as [|a t IH]; intros H; [cbn; lia|]. rewrite sumZ_cons; cbn [length].
  specialize (IH (fun x Hx => H x (or_intror Hx))). specialize (H a (or_introl eq_refl)). lia.
Qed.
Lemma sumZ_ge_const l c : (forall x, In x l -> c <= x) -> zlen l * c <= sumZ l.
Proof.
  unfold zlen; induction l as [|a t IH]; intros H; [cbn; lia|]. rewrite sumZ_cons; cbn [length].
  specialize (IH (fun x Hx => H x (or_intror Hx))). specialize (H a (or_introl eq_refl)). lia.
Qed.
Lemma In_upd {A} i (v x : A) l : In x (upd i v l) -> x = v \/ In x l.
Proof.
  revert i; induction l as [|a t IH]; intros [|i]; cbn; auto.
  - intros [<-|H]; auto.
  - intros [<-|H]; auto. destruct (IH _ H); auto.
Qed.

Lemma cdiv_spec a b : 0 < b -> (cdiv a b - 1) * b < a <= cdiv a b * b.
Proof. intros Hb; unfold cdiv. pose proof (Z.div_mod (- a) b ltac:(lia)). pose proof (Z.mod_pos_bound (- a) b Hb). nia. Qed.
Lemma cdiv_le a b n : 0 < b -> a <= n * b -> cdiv a b <= n.
Proof. intros Hb H; pose proof (cdiv_spec a b Hb). nia. Qed.
Lemma div_ge a b n : 0 < b -> n * b <= a -> n <= a / b.
Proof. intros Hb H. apply Z.div_le_lower_bound; lia. Qed.

(* ------------------------------------------------------------------ *)
(** * C18 *)
Lemma build_list g n q r : 0 <= q <= n -> 0 <= r -> (r <> 0 -> q < n) -> g_min g + r <= g_max g -> g_min g <= g_max g ->
  let l0 := repeat (g_min g) (Z.to_nat n) in
  let l := firstn (Z.to_nat (n - q)) l0 ++ repeat (g_max g) (length (skipn (Z.to_nat (n - q)) l0)) in
  exists l', (if r =? 0 then Ok l else
      do x <- get l (n - q - 1);
      Ok (if 0 <=? n - q - 1 then upd (Z.to_nat (n - q - 1)) (x + r) l
          else upd (Z.to_nat (n + (n - q - 1))) (x + r) l)) = Ok l' /\
    zlen l' = n /\ (forall x, In x l' -> g_min g <= x <= g_max g) /\
    sumZ l' = n * g_min g + q * (g_max g - g_min g) + r.
Proof.
  intros Hq Hr Hrq Hg Hg2 l0 l.
  assert (E : l = repeat (g_min g) (Z.to_nat (n - q)) ++ repeat (g_max g) (Z.to_nat q)).
  { unfold l, l0. rewrite skipn_length, repeat_length. f_equal.
    - replace (Z.to_nat n) with (Z.to_nat (n - q) + Z.to_nat q)%nat by lia. rewrite repeat_app, firstn_app, repeat_length, Nat.sub_diag.
      cbn [firstn]. rewrite app_nil_r. rewrite firstn_all2; auto. rewrite repeat_length; lia.
    - f_equal; lia. }
  assert (Ll : length l = Z.to_nat n) by (rewrite E, app_length, !repeat_length; lia).
  assert (Sl : sumZ l = n * g_min g + q * (g_max g - g_min g)).
  { rewrite E, sumZ_app, !sumZ_repeat. rewrite !Z2Nat.id by lia. lia. }
  assert (Il : forall x, In x l -> g_min g <= x <= g_max g).
  { rewrite E; intros x Hx; apply in_app_or in Hx; destruct Hx as [Hx|Hx]; apply repeat_spec in Hx; subst; lia. }
  destruct (Z.eqb_spec r 0) as [->|Hn].
  - exists l; split; auto. split; [unfold zlen; lia|]. split; auto; lia.
  - specialize (Hrq Hn). set (i := Z.to_nat (n - q - 1)).
    assert (Hi : (i < length l)%nat) by (unfold i; lia).
    assert (Ni : nth i l 0 = g_min g).
    { rewrite E, app_nth1 by (rewrite repeat_length; unfold i; lia).
      rewrite (nth_indep _ _ (g_min g)) by (rewrite repeat_length; unfold i; lia). apply nth_repeat. }
    replace (n - q - 1) with (Z.of_nat i) by (unfold i; lia).
    rewrite (get_ok l i 0) by auto. cbn [bind].
    destruct (Z.leb_spec 0 (Z.of_nat i)); [|lia]. rewrite Ni.
    eexists; split; [reflexivity|]. split; [unfold zlen; rewrite upd_length; lia|]. split.
    + intros x Hx; apply In_upd in Hx; destruct Hx as [->|Hx]; auto; lia.
    + rewrite sumZ_upd, Ni by auto. lia.
Qed.

Lemma group_list_ok g h n : 1 <= g_min g <= g_max g -> 1 <= n -> n * g_min g <= h <= n * g_max g ->
  exists l, group_list g h n = Ok l /\ zlen l = n /\ division g h l.
Proof.
  intros Hg Hn Hh. unfold group_list. destruct (Z.ltb_spec n 0); [lia|].
  unfold full_extra. set (D := g_max g - g_min g). set (ex := h - n * g_min g).
  assert (Hex : 0 <= ex <= n * D) by (unfold ex, D; nia).
  assert (G : exists q r, (if (D <=? ex) && negb (ex =? 0) then if D =? 0 then Err ZeroDivision else Ok (ex / D, ex mod D) else Ok (0, ex)) = Ok (q, r) /\
     0 <= q <= n /\ 0 <= r /\ (r <> 0 -> q < n) /\ r <= D /\ ex = q * D + r).
  { destruct (Z.leb_spec D ex) as [HD|HD]; [destruct (Z.eqb_spec ex 0) as [Z0|Z0]|]; cbn [andb negb].
    - exists 0, ex; repeat split; try lia.
    - destruct (Z.eqb_spec D 0); [nia|]. assert (0 < D) by lia.
      exists (ex / D), (ex mod D). pose proof (Z.div_mod ex D ltac:(lia)). pose proof (Z.mod_pos_bound ex D ltac:(lia)).
      split; auto. split; [nia|]. split; [lia|]. split; [nia|]. split; [lia|]. lia.
    - exists 0, ex; repeat split; try lia. }
  destruct G as [q [r [-> [Hq [Hr [Hrq [HrD He]]]]]]]. cbn [bind].
  destruct (build_list g n q r Hq Hr Hrq ltac:(unfold D in *; lia) ltac:(lia)) as [l' [El [Ll [Il Sl]]]].
  cbn zeta in El. rewrite El. exists l'; split; auto; split; auto. split; [|split; auto].
  - intros ->; cbn in Ll; lia.
  - rewrite Sl. unfold ex, D in *; lia.
Qed.

Lemma divide_ok (sym : bool) g n_lam : 1 <= g_min g <= g_max g ->
  let h := if sym then n_lam / 2 else n_lam in
  (exists l0, division g h l0) ->
  exists n l, divide_thickest sym g n_lam = Ok (n, l) /\ zlen l = n /\ division g h l /\
    forall l', division g h l' -> n <= zlen l'.
Proof.
  intros Hg h [l0 [Ne [I0 S0]]]. unfold divide_thickest. fold h.
  assert (L0 : 1 <= zlen l0) by (destruct l0; [congruence|unfold zlen; cbn [length]; lia]).
  assert (B1 : h <= zlen l0 * g_max g) by (rewrite <- S0; apply sumZ_le_const; intros; apply I0; auto).
  assert (B2 : zlen l0 * g_min g <= h) by (rewrite <- S0; apply sumZ_ge_const; intros; apply I0; auto).
  assert (C1 := cdiv_le h (g_max g) (zlen l0) ltac:(lia) B1).
  assert (C2 := div_ge h (g_min g) (zlen l0) ltac:(lia) B2).
  set (mini := cdiv h (g_max g)) in *. set (maxi := h / g_min g) in *.
  assert (M1 : 1 <= mini). { pose proof (cdiv_spec h (g_max g) ltac:(lia)). fold mini in H. nia. }
  destruct (Z.ltb_spec maxi mini); [lia|].
  assert (B3 : mini * g_min g <= h <= mini * g_max g).
  { pose proof (cdiv_spec h (g_max g) ltac:(lia)) as H1. fold mini in H1.
    pose proof (Z.mul_div_le h (g_min g) ltac:(lia)). fold maxi in H0. nia. }
  destruct (Z.to_nat (maxi + 1 - mini)) as [|k] eqn:Ek; [lia|]. cbn [group_loop].
  destruct (Z.ltb_spec ((g_max g - g_min g) * mini) (mini * g_max g - h)); [lia|].
  destruct (Z.eqb_spec mini 0); [lia|].
  destruct (group_list_ok g h mini Hg M1 B3) as [l [El [Ll Dl]]]. rewrite El; cbn [bind].
  assert (Sl : sumZ l = h) by apply Dl.
  destruct (Z.eqb_spec (if sym then 2 * sumZ l + n_lam mod 2 else sumZ l) n_lam) as [|Hne].
  2:{ exfalso; apply Hne. unfold h in Sl. destruct sym; rewrite Sl; auto. pose proof (Z.div_mod n_lam 2); lia. }
  cbn [negb guard bind]. destruct (Z.ltb_spec maxi mini); [lia|]. cbn [guard bind].
  exists mini, l; split; auto; split; auto; split; auto.
  intros l' [Ne' [I' S']]. apply cdiv_le; [lia|]. rewrite <- S'. apply sumZ_le_const; intros; apply I'; auto.
Qed.

Lemma divide_err (sym : bool) g n_lam : 1 <= g_min g <= g_max g ->
  let h := if sym then n_lam / 2 else n_lam in
  ~ (exists l0, division g h l0) ->
  exists e, divide_thickest sym g n_lam = Err e.
Proof.
  intros Hg h N. unfold divide_thickest. fold h.
  set (mini := cdiv h (g_max g)). set (maxi := h / g_min g).
  destruct (Z.ltb_spec maxi mini); [eauto|].
  assert (B3 : mini * g_min g <= h <= mini * g_max g).
  { pose proof (cdiv_spec h (g_max g) ltac:(lia)) as H1. fold mini in H1.
    pose proof (Z.mul_div_le h (g_min g) ltac:(lia)). fold maxi in H0. nia. }
  assert (M : mini <= 0).
  { destruct (Z.le_gt_cases mini 0); auto. exfalso; apply N.
    destruct (group_list_ok g h mini Hg ltac:(lia) B3) as [l [_ [_ D]]]; eauto. }
  assert (MM : maxi <= 0). { unfold maxi. apply Z.div_le_upper_bound; nia. }
  assert (G : forall k n, n + Z.of_nat k <= 1 -> exists e, group_loop g h n k = Err e).
  { induction k as [|k IH]; intros n Hn; cbn [group_loop]; [eauto|].
    destruct (_ <? _); [apply IH; lia|]. destruct (Z.eqb_spec n 0); [apply IH; lia|].
    unfold group_list. destruct (Z.ltb_spec n 0); [cbn; eauto|lia]. }
  destruct (G (Z.to_nat (maxi + 1 - mini)) mini ltac:(lia)) as [e ->]. exists e; reflexivity.
Qed.

Lemma division_dec g h : 1 <= g_min g <= g_max g ->
  (exists l, division g h l) <-> exists n, 1 <= n /\ n * g_min g <= h <= n * g_max g.
Proof.
  intros Hg; split.
  - intros [l [Ne [I S]]]. exists (zlen l). split; [destruct l; [congruence|unfold zlen; cbn [length]; lia]|].
    rewrite <- S; split; [apply sumZ_ge_const | apply sumZ_le_const]; intros; apply I; auto.
  - intros [n [Hn Hh]]. destruct (group_list_ok g h n Hg Hn Hh) as [l [_ [_ D]]]; eauto.
Qed.

Lemma Classical_div (sym : bool) g n_lam : 1 <= g_min g <= g_max g ->
  let h := if sym then n_lam / 2 else n_lam in
  (exists l0, division g h l0) \/ ~ (exists l0, division g h l0).
Proof.
  intros Hg h. rewrite division_dec by auto.
  pose proof (cdiv_spec h (g_max g) ltac:(lia)) as H1. set (m := cdiv h (g_max g)) in *.
  destruct (Z_le_dec 1 m) as [M1|M1]; [destruct (Z_le_dec (m * g_min g) h) as [M2|M2]|].
  - left; exists m; lia.
  - right; intros [n [Hn Hh]]. assert (m <= n) by (apply cdiv_le; lia). nia.
  - right; intros [n [Hn Hh]]. assert (h <= 0) by nia. nia.
Qed.

Lemma forbidden_iff (sym : bool) g n_cov n : 1 <= g_min g <= g_max g ->
  let h := if sym then (n - 2 * n_cov) / 2 else n - 2 * n_cov in 1 <= h ->
  forbidden sym g n_cov n = true <-> ~ exists l, division g h l.
Proof.
  intros Hg h Hh. rewrite division_dec by auto. unfold forbidden. fold h.
  pose proof (cdiv_spec h (g_max g) ltac:(lia)) as H1.
  pose proof (Z.div_mod h (g_min g) ltac:(lia)) as H2. pose proof (Z.mod_pos_bound h (g_min g) ltac:(lia)) as H3.
  destruct (Z.ltb_spec (h / g_min g) (cdiv h (g_max g))) as [L|L]; split; try discriminate; auto.
  - intros _ [m [Hm [A B]]]. assert (m <= h / g_min g) by (apply div_ge; lia).
    assert (cdiv h (g_max g) <= m) by (apply cdiv_le; lia). lia.
  - intros N; exfalso; apply N. exists (cdiv h (g_max g)). split; [nia|]. nia.
Qed.

(* ------------------------------------------------------------------ *)
(** * C19 *)
Lemma map2_sub_sum l d : length l = length d -> sumZ (map2 Z.sub l d) = sumZ l - sumZ d.
Proof.
  revert d; induction l as [|x l IH]; intros [|y d] H; cbn [map2 length] in *; try lia; auto.
  rewrite !sumZ_cons, IH by lia. lia.
Qed.

Definition bounded (l d : list Z) : Prop := Forall2 (fun x y => 0 <= y <= x) l d.

(** how many groups have the size [s] *)
Definition nsize (s : Z) (l : list Z) : Z := Z.of_nat (countb (fun x => x =? s) l).

(** one pass adds a drop to the first groups of size [s], as many as are missing *)
Lemma add_pass_spec s : forall l d m, length l = length d -> 0 < m ->
  let (r, m') := add_pass s l d m in
  length r = length d /\ m' = Z.max 0 (m - nsize s l) /\ sumZ r = sumZ d + (m - m') /\
  Forall2 (fun p q => q = snd p \/ (fst p = s /\ q = snd p + 1)) (combine l d) r.
Proof.
  unfold nsize; induction l as [|x l IH]; intros [|y d] m L Hm; cbn [length] in L; try lia; cbn [add_pass combine].
  - cbn. repeat split; try lia. constructor.
  - rewrite countb_cons. destruct (Z.eqb_spec x s) as [->|Hx].
    + destruct (Z.eqb_spec (m - 1) 0).
      * repeat split; try lia; auto.
        -- rewrite !sumZ_cons. lia.
        -- constructor; [right; cbn; auto|]. assert (length l = length d) as L2 by lia. clear - L2.
           revert d L2; induction l as [|a l IH]; intros [|b d] L; cbn in *; try lia; constructor; auto.
      * specialize (IH d (m - 1) ltac:(lia) ltac:(lia)). destruct (add_pass s l d (m - 1)) as [r m'].
        destruct IH as [I1 [I2 [I3 I4]]]. cbn [length]. repeat split; auto; try lia.
        -- rewrite !sumZ_cons. lia.
    + specialize (IH d m ltac:(lia) Hm). destruct (add_pass s l d m) as [r m'].
      destruct IH as [I1 [I2 [I3 I4]]]. cbn [length]. repeat split; auto; try lia.
      rewrite !sumZ_cons; lia.
Qed.

(** number of groups with a size in (lo, hi] *)
Definition nrange (lo hi : Z) (l : list Z) : Z := Z.of_nat (countb (fun x => (lo <? x) && (x <=? hi))%bool l).

Lemma nrange_step lo s l : lo < s -> nrange lo s l = nsize s l + nrange lo (s - 1) l.
Proof.
  intros H; unfold nrange, nsize; induction l as [|x l IH]; auto. rewrite !countb_cons.
  destruct (Z.eqb_spec x s), (Z.ltb_spec lo x), (Z.leb_spec x s), (Z.leb_spec x (s - 1)); cbn [andb]; lia.
Qed.

(** the loop ends once enough sizes have been visited; every group gets at most one more
    drop *)
Lemma add_missing_spec l : forall fuel s d m,
  length l = length d -> 0 <= m <= nrange (s - Z.of_nat fuel) s l ->
  exists r, add_missing fuel s l d m = Ok r /\ length r = length d /\ sumZ r = sumZ d + m /\
    Forall2 (fun p q => q = snd p \/ (fst p <= s /\ q = snd p + 1)) (combine l d) r.
Proof.
  induction fuel as [|f IH]; intros s d m L Hm; cbn [add_missing].
  - destruct (Z.ltb_spec 0 m).
    + exfalso. assert (nrange (s - Z.of_nat 0) s l = 0).
      { unfold nrange. replace (countb _ l) with 0%nat; auto. symmetry; apply countb_zero.
        intros x _. destruct (Z.ltb_spec (s - Z.of_nat 0) x), (Z.leb_spec x s); auto; lia. } lia.
    + exists d; repeat split; auto; try lia. clear - L. revert d L; induction l as [|a l IH]; intros [|b d] L; cbn in *; try lia; constructor; auto.
  - destruct (Z.ltb_spec 0 m).
    2:{ exists d; repeat split; auto; try lia. clear - L. revert d L; induction l as [|a l IH]; intros [|b d] L; cbn in *; try lia; constructor; auto. }
    pose proof (add_pass_spec s l d m L H) as P. destruct (add_pass s l d m) as [r m']. destruct P as [P1 [P2 [P3 P4]]].
    rewrite (nrange_step _ s) in Hm by lia.
    destruct (IH (s - 1) r m') as [r2 [E2 [L2 [S2 F2]]]]; [lia| |].
    { replace (s - 1 - Z.of_nat f) with (s - Z.of_nat (S f)) by lia. assert (0 <= nrange (s - Z.of_nat (S f)) (s - 1) l) by (unfold nrange; lia). lia. }
    exists r2; split; auto. split; [lia|]. split; [lia|].
    clear - P4 F2 L P1. revert r r2 d P4 F2 L P1; induction l as [|x l IH]; intros r r2 [|y d] P4 F2 L P1; cbn [combine length] in *; try lia.
    + inversion P4; subst. cbn [combine] in F2. inversion F2; constructor.
    + inversion P4 as [|? q ? r' P Pr]; subst. cbn [combine] in F2.
      inversion F2 as [|? q2 ? r2' Q Qr]; subst. constructor.
      * cbn [fst snd] in *. destruct P as [->|[-> ->]], Q as [->|[A ->]]; auto; try (right; split; lia).
      * apply (IH r' r2' d); auto; cbn in *; lia.
Qed.

Lemma spread_length d2 l : length (spread d2 l) = length l.
Proof. unfold spread; apply map_length. Qed.

Lemma sum_floor (f : Z -> Z) b : 0 < b -> forall l,
  b * sumZ (map (fun x => f x / b) l) <= sumZ (map f l) /\
  sumZ (map f l) <= b * sumZ (map (fun x => f x / b) l) + zlen l * (b - 1).
Proof.
  intros Hb; unfold zlen; induction l as [|x l IH]; [cbn; lia|]. cbn [map length]; rewrite !sumZ_cons.
  pose proof (Z.div_mod (f x) b ltac:(lia)). pose proof (Z.mod_pos_bound (f x) b Hb). lia.
Qed.

Lemma sumZ_map_mul c l : sumZ (map (fun x => c * x) l) = c * sumZ l.
Proof. induction l as [|x l IH]; [cbn; lia|]. cbn [map]; rewrite !sumZ_cons, IH; lia. Qed.

Lemma countb_all {A} (p : A -> bool) l : (forall x, In x l -> p x = true) -> countb p l = length l.
Proof.
  induction l as [|a t IH]; intros H; auto. rewrite countb_cons, H, IH by (cbn; auto; intros; apply H; right; auto); auto.
Qed.

Lemma member_le_sum l x : (forall y, In y l -> 0 <= y) -> In x l -> x <= sumZ l.
Proof.
  induction l as [|a t IH]; intros H Hx; [destruct Hx|]. rewrite sumZ_cons.
  assert (0 <= sumZ t) by (apply sumZ_nonneg; intros y Hy; apply H; right; auto).
  destruct Hx as [->|Hx]; [lia|]. specialize (IH (fun y Hy => H y (or_intror Hy)) Hx).
  specialize (H a (or_introl eq_refl)); lia.
Qed.

(** the ply drops of a thinner panel: [k] of them, at most as many per group as the group
    has plies *)
Lemma panel_drops_spec sym g n_max n l d2 k :
  1 <= g_min g <= g_max g -> (forall x, In x l -> g_min g <= x <= g_max g) -> l <> [] ->
  d2 = twice_drops sym n_max n -> d2 = 2 * k \/ d2 = 2 * k + 1 -> 0 <= k <= sumZ l ->
  exists d, panel_drops (Z.to_nat (g_max g - g_min g + 1)) sym g n_max n l = Ok d /\
    length d = length l /\ sumZ d = k /\ bounded l d.
Proof.
  intros Hg Hl Ne E2 Hk Hks. unfold panel_drops. rewrite <- E2.
  set (S := sumZ l) in *.
  assert (HS : 0 < S).
  { unfold S. assert (zlen l * 1 <= sumZ l) by (apply sumZ_ge_const; intros; specialize (Hl _ H); lia).
    destruct l; [congruence|]. unfold zlen in H; cbn [length] in H; lia. }
  assert (B := sum_floor (fun x => d2 * x) (2 * S) ltac:(lia) l).
  rewrite sumZ_map_mul in B. fold S in B.
  replace (map (fun x => d2 * x / (2 * S)) l) with (spread d2 l) in B by reflexivity.
  set (T := sumZ (spread d2 l)) in *.
  assert (Hlen : 1 <= zlen l) by (destruct l; [congruence|unfold zlen; cbn [length]; lia]).
  assert (BT : 2 * T <= d2) by (apply (Z.mul_le_mono_pos_l _ _ S HS); lia).
  assert (BT2 : d2 < 2 * T + 2 * zlen l) by (apply (Z.mul_lt_mono_pos_l S _ _ HS); lia).
  assert (Hq : Z.quot (d2 - 2 * T) 2 = k - T).
  { rewrite Z.quot_div_nonneg by lia. destruct Hk as [->| ->].
    - replace (2 * k - 2 * T) with ((k - T) * 2) by lia. apply Z.div_mul; lia.
    - replace (2 * k + 1 - 2 * T) with (1 + (k - T) * 2) by lia. rewrite Z.div_add by lia. reflexivity. }
  rewrite Hq.
  assert (Hr : nrange (g_max g - Z.of_nat (Z.to_nat (g_max g - g_min g + 1))) (g_max g) l = zlen l).
  { unfold nrange, zlen. f_equal. apply countb_all. intros x Hx; specialize (Hl x Hx).
    rewrite andb_true_iff, Z.ltb_lt, Z.leb_le. lia. }
  destruct (add_missing_spec l (Z.to_nat (g_max g - g_min g + 1)) (g_max g) (spread d2 l) (k - T)) as [r [Er [Lr [Sr Fr]]]].
  { rewrite spread_length; auto. }
  { rewrite Hr. lia. }
  exists r; split; auto. split; [rewrite Lr, spread_length; auto|]. split; [unfold T in Sr; lia|].
  (* every group: floor + at most 1 *)
  assert (Hmem : forall x, In x l -> 0 <= x <= S).
  { intros x Hx; split; [specialize (Hl x Hx); lia|]. apply member_le_sum; auto. intros y Hy; specialize (Hl y Hy); lia. }
  assert (Hcase : k = S \/ k < S) by lia.
  assert (Hfl : forall x, In x l -> 0 <= d2 * x / (2 * S) /\ (k < S -> d2 * x / (2 * S) < x) /\ (k = S -> d2 * x / (2 * S) = x)).
  { intros x Hx. specialize (Hl x Hx). specialize (Hmem x Hx). assert (0 <= d2) by lia. split; [|split].
    - apply Z.div_pos; nia.
    - intros Hc. apply Z.div_lt_upper_bound; [lia|]. nia.
    - intros Hc. symmetry. apply Z.div_unique with (r := (d2 - 2 * S) * x); [left|]; nia. }
  assert (HT : k = S -> T = S).
  { intros Hc. unfold T, S. f_equal. unfold spread. fold S. rewrite <- (map_id l) at 2.
    apply map_ext_in. intros x Hx; apply (Hfl x Hx); auto. }
  destruct Hcase as [Hc|Hc].
  - assert (r = spread d2 l) as ->.
    { rewrite Hc, (HT Hc) in Er. rewrite Z.sub_diag in Er. destruct (Z.to_nat _) in Er; cbn in Er; congruence. }
    assert (spread d2 l = l) as ->.
    { unfold spread; fold S. rewrite <- (map_id l) at 2. apply map_ext_in. intros x Hx; apply (Hfl x Hx); auto. }
    clearbody S. clear - Hmem. unfold bounded. induction l as [|x l IH]; constructor.
    + specialize (Hmem x (or_introl eq_refl)); lia.
    + apply IH. intros y Hy; apply Hmem; right; auto.
  - unfold spread in Fr. fold S in Fr. clearbody S. clear - Fr Hfl Hc. unfold bounded.
    assert (G : forall x, In x l -> 0 <= (fun x => d2 * x / (2 * S)) x < x) by (intros x Hx; specialize (Hfl x Hx); lia).
    clear Hfl. revert r Fr. generalize dependent (fun x => d2 * x / (2 * S)). intros fl G. induction l as [|x l IH]; intros r Fr; cbn [map combine] in Fr.
    + inversion Fr; constructor.
    + inversion Fr as [|? q ? r' P Q]; subst. constructor; [|apply IH; auto; intros y Hy; apply G; right; auto].
      specialize (G x (or_introl eq_refl)). cbn [fst snd] in P. lia.
Qed.

(** twice the drops, and the number of drops *)
Lemma twice_drops_eq (sym : bool) n_max n :
  let k := if sym then n_max / 2 - n / 2 else n_max - n in
  twice_drops sym n_max n = 2 * k \/ twice_drops sym n_max n = 2 * k + 1.
Proof.
  unfold twice_drops; destruct sym; cbn zeta; [|left; lia].
  pose proof (Z.div_mod n 2 ltac:(lia)). pose proof (Z.div_mod n_max 2 ltac:(lia)).
  pose proof (Z.mod_pos_bound n 2 ltac:(lia)). pose proof (Z.mod_pos_bound n_max 2 ltac:(lia)). lia.
Qed.

Lemma bounded_sub l d : bounded l d -> length d = length l /\ bounded l (map2 Z.sub l d).
Proof.
  unfold bounded; induction 1 as [|x y l d H F [IH1 IH2]]; cbn [map2 length]; split; auto. constructor; auto; lia.
Qed.

Lemma plies_per_group_spec (sym : bool) g n_cov n_max n l :
  1 <= g_min g <= g_max g ->
  division g (if sym then (n_max - 2 * n_cov) / 2 else n_max - 2 * n_cov) l ->
  2 * n_cov <= n <= n_max ->
  exists p, plies_per_group (Z.to_nat (g_max g - g_min g + 1)) sym g n_max n l = Ok p /\
    length p = length l /\ bounded l p /\
    sumZ p = (if sym then n / 2 - n_cov else n - 2 * n_cov).
Proof.
  intros Hg [Ne [Hl Hs]] Hn. unfold plies_per_group.
  assert (Hp : forall x, In x l -> 0 <= x) by (intros x Hx; specialize (Hl x Hx); lia).
  assert (Hs' : sumZ l = if sym then n_max / 2 - n_cov else n_max - 2 * n_cov).
  { rewrite Hs. destruct sym; auto. replace (n_max - 2 * n_cov) with (n_max + (- n_cov) * 2) by lia.
    rewrite Z.div_add by lia; lia. }
  destruct (Z.eqb_spec n n_max) as [->|Hne].
  - exists l; split; auto; split; auto. split; auto.
    clear - Hp. unfold bounded; induction l as [|x l IH]; constructor.
    + specialize (Hp x (or_introl eq_refl)); lia.
    + apply IH; intros; apply Hp; right; auto.
  - set (k := if sym then n_max / 2 - n / 2 else n_max - n).
    assert (Hk : 0 <= k <= sumZ l).
    { rewrite Hs'. unfold k. destruct sym; [|lia].
      assert (n / 2 <= n_max / 2) by (apply Z.div_le_mono; lia).
      assert (n_cov <= n / 2) by (apply Z.div_le_lower_bound; lia). lia. }
    destruct (panel_drops_spec sym g n_max n l _ k Hg Hl Ne eq_refl (twice_drops_eq sym n_max n) Hk) as [d [Ed [Ld [Sd Bd]]]].
    rewrite Ed; cbn [bind]. eexists; split; [reflexivity|].
    destruct (bounded_sub l d Bd) as [_ B2]. split; [rewrite map2_length; lia|]. split; auto.
    rewrite map2_sub_sum by lia. rewrite Sd, Hs'. unfold k. destruct sym; lia.
Qed.

Lemma near_helper c (fl : Z -> Z) l d :
  Forall2 (fun p q => q = snd p \/ (fst p <= c /\ q = snd p + 1)) (combine l (map fl l)) d ->
  Forall2 (fun x y => fl x <= y <= fl x + 1) l d.
Proof.
  revert d; induction l as [|x l IH]; intros d Fr; cbn [map combine] in Fr.
  - inversion Fr; constructor.
  - inversion Fr as [|? q ? r' P Q]; subst. constructor; [cbn [fst snd] in P; lia|apply IH; auto].
Qed.
Lemma near_mono (f1 f2 : Z -> Z) l d1 d2 :
  Forall2 (fun x y => f1 x <= y <= f1 x + 1) l d1 -> Forall2 (fun x y => f2 x <= y <= f2 x + 1) l d2 ->
  (forall x, In x l -> f1 x <= f2 x) -> Forall2 (fun a b => a <= b + 1) d1 d2.
Proof.
  intros F1; revert d2. induction F1 as [|x y l d1 H F1 IH]; intros d2 F2 M.
  - inversion F2; constructor.
  - inversion F2 as [|? z ? d2' Hz F2']; subst. constructor.
    + specialize (M x (or_introl eq_refl)); lia.
    + apply IH; auto. intros; apply M; right; auto.
Qed.

(** between two panels the drops of a group change against the thickness by at most one *)
Lemma panel_drops_near sym g n_max n l d fuel : 0 < sumZ l -> 0 <= twice_drops sym n_max n ->
  (forall x, In x l -> g_min g <= x <= g_max g) -> fuel = Z.to_nat (g_max g - g_min g + 1) ->
  panel_drops fuel sym g n_max n l = Ok d ->
  Forall2 (fun x y => let f := twice_drops sym n_max n * x / (2 * sumZ l) in f <= y <= f + 1) l d.
Proof.
  intros HS Hd2 Hl -> E. unfold panel_drops in E. set (d2 := twice_drops sym n_max n) in *.
  set (m := Z.quot _ 2) in E.
  assert (B := sum_floor (fun x => d2 * x) (2 * sumZ l) ltac:(lia) l). rewrite sumZ_map_mul in B.
  replace (map (fun x => d2 * x / (2 * sumZ l)) l) with (spread d2 l) in B by reflexivity.
  set (T := sumZ (spread d2 l)) in *.
  assert (BT : 2 * T <= d2) by (apply (Z.mul_le_mono_pos_l _ _ (sumZ l) HS); lia).
  assert (Hlen : 1 <= zlen l) by (destruct l; [cbn in HS; lia|unfold zlen; cbn [length]; lia]).
  assert (BT2 : d2 < 2 * T + 2 * zlen l) by (apply (Z.mul_lt_mono_pos_l (sumZ l) _ _ HS); lia).
  assert (Hm : 0 <= m <= zlen l).
  { unfold m. rewrite Z.quot_div_nonneg by lia. split; [apply Z.div_pos; lia|].
    apply Z.div_le_upper_bound; lia. }
  assert (Hr : nrange (g_max g - Z.of_nat (Z.to_nat (g_max g - g_min g + 1))) (g_max g) l = zlen l).
  { unfold nrange, zlen. f_equal. apply countb_all. intros x Hx; specialize (Hl x Hx).
    rewrite andb_true_iff, Z.ltb_lt, Z.leb_le. lia. }
  destruct (add_missing_spec l (Z.to_nat (g_max g - g_min g + 1)) (g_max g) (spread d2 l) m) as [r [Er [_ [_ Fr]]]];
    [rewrite spread_length; auto|rewrite Hr; lia|].
  rewrite E in Er; injection Er as <-.
  unfold spread in Fr. exact (near_helper (g_max g) (fun x => d2 * x / (2 * sumZ l)) l d Fr).
Qed.

Lemma drops_not_much_less (sym : bool) g n_cov n_max n1 n2 l d1 d2 fuel :
  1 <= g_min g <= g_max g ->
  division g (if sym then (n_max - 2 * n_cov) / 2 else n_max - 2 * n_cov) l ->
  n2 <= n1 <= n_max -> fuel = Z.to_nat (g_max g - g_min g + 1) ->
  panel_drops fuel sym g n_max n1 l = Ok d1 -> panel_drops fuel sym g n_max n2 l = Ok d2 ->
  Forall2 (fun a b => a <= b + 1) d1 d2.
Proof.
  intros Hg [Ne [Hl Hs]] Hn Hf E1 E2.
  assert (HS : 0 < sumZ l).
  { assert (zlen l * 1 <= sumZ l) by (apply sumZ_ge_const; intros; specialize (Hl _ H); lia).
    destruct l; [congruence|]. unfold zlen in H; cbn [length] in H; lia. }
  assert (T : 0 <= twice_drops sym n_max n1 <= twice_drops sym n_max n2).
  { unfold twice_drops. destruct sym; [|lia].
    pose proof (Z.div_mod n1 2 ltac:(lia)). pose proof (Z.div_mod n2 2 ltac:(lia)).
    pose proof (Z.mod_pos_bound n1 2 ltac:(lia)).
    assert (n2 / 2 <= n1 / 2) by (apply Z.div_le_mono; lia). lia. }
  assert (F1 := panel_drops_near sym g n_max n1 l d1 fuel HS ltac:(lia) Hl Hf E1).
  assert (F2 := panel_drops_near sym g n_max n2 l d2 fuel HS ltac:(lia) Hl Hf E2).
  assert (P : forall x, In x l -> 0 <= x) by (intros x Hx; specialize (Hl x Hx); lia).
  set (t1 := twice_drops sym n_max n1) in *. set (t2 := twice_drops sym n_max n2) in *.
  assert (M : forall x, In x l -> t1 * x / (2 * sumZ l) <= t2 * x / (2 * sumZ l)).
  { intros x Hx. specialize (P x Hx). apply Z.div_le_mono; nia. }
  exact (near_mono (fun x => t1 * x / (2 * sumZ l)) (fun x => t2 * x / (2 * sumZ l)) l d1 d2 F1 F2 M).
Qed.

(* ------------------------------------------------------------------ *)
(** * C48 *)
Lemma first_plies_length s l : length (first_plies s l) = length l.
Proof. revert s; induction l as [|x l IH]; intros s; cbn; auto. Qed.
Lemma first_plies_nth l : forall s i, (i < length l)%nat -> nth i (first_plies s l) 0 = s + sumZ (firstn i l).
Proof.
  induction l as [|x l IH]; intros s [|i] H; cbn [length first_plies nth firstn] in *; try lia.
  - cbn; lia.
  - rewrite IH by lia. rewrite sumZ_cons; lia.
Qed.
Lemma evens_odds_ind {A} (P : list A -> Prop) : P [] -> (forall a, P [a]) -> (forall a b l, P l -> P (a :: b :: l)) -> forall l, P l.
Proof.
  intros H0 H1 H2. assert (G : forall n l, (length l <= n)%nat -> P l).
  { induction n as [|n IH]; intros l L; [destruct l; [auto|cbn in L; lia]|].
    destruct l as [|a [|b l]]; auto. apply H2, IH. cbn in L; lia. }
  intros l; apply (G (length l)); auto.
Qed.
Lemma evens_odds_length {A} (l : list A) : (length (evens l) + length (odds l) = length l)%nat /\
  (length (evens l) = length (odds l) \/ length (evens l) = S (length (odds l))).
Proof.
  induction l using evens_odds_ind; cbn [evens odds length] in *; lia.
Qed.
Lemma evens_interleave {A} (a b : list A) : (length a = length b \/ length a = S (length b)) ->
  evens (interleave a b) = a /\ odds (interleave a b) = b.
Proof.
  revert b; induction a as [|x a IH]; intros [|y b] H; cbn [length] in *; try lia; cbn [interleave evens odds]; auto.
  - destruct a; cbn in *; auto; lia.
  - destruct (IH b) as [E1 E2]; [lia|]. rewrite E1, E2; auto.
Qed.

Lemma asym_first_plies_spec s l :
  evens (asym_first_plies s l) ++ rev (odds (asym_first_plies s l)) =
  first_plies s (evens l ++ rev (odds l)).
Proof.
  unfold asym_first_plies, order_of_groups. set (pos := first_plies s _).
  assert (L : length pos = (length (evens l) + length (odds l))%nat).
  { unfold pos; rewrite first_plies_length, app_length, rev_length; auto. }
  destruct (evens_odds_length l) as [E1 E2].
  destruct (evens_interleave (firstn (length (evens l)) pos) (rev (skipn (length (evens l)) pos))) as [F1 F2].
  { rewrite rev_length, firstn_length, skipn_length, L. lia. }
  rewrite F1, F2, rev_involutive. apply firstn_skipn.
Qed.
