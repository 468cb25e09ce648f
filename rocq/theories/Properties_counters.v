(* Properties_counters.v - C82, C83: the violation counters updated ply by ply agree
   with the number of violations in the finished laminate. *)
From Verif Require Import Base Constraints Guidelines SpecGuidelines GuidelinesProofs
  Divers DiversProofs Counters.
From Verif Require Import Properties_filters.
Local Open Scope Z_scope.

(* ------------------------------------------------------------------ *)
(** * Specification *)

(** the new ply goes to the panels where the layout has it, under the plies of the
    bottom half *)
Definition put_under (a : Z) (level : nat) (pdl halves : list (list Z)) : list (list Z) :=
  map (fun rh : list Z * list Z => let (row, h) := rh in
         if 0 <=? nth level row 0 then h ++ [a] else h) (List.combine pdl halves).

(** or on the other side, in front of the plies of the top half *)
Definition put_over (a : Z) (level : nat) (pdl halves : list (list Z)) : list (list Z) :=
  map (fun rh : list Z * list Z => let (row, h) := rh in
         if 0 <=? nth level row 0 then a :: h else h) (List.combine pdl halves).

(** a whole search path: the angles of [angles] are laid at the levels [level],
    [level + 1], ..., the last of them at the last level; symmetric laminates grow on
    one side, the others alternate *)
Fixpoint lay (c : cons) (pdl : list (list Z)) (level : nat) (angles : list Z)
  (bot top : list (list Z)) (viola : list Z)
  : result (list (list Z) * list (list Z) * list Z) :=
  match angles with
  | [] => Ok (bot, top, viola)
  | a :: t =>
      do v <- calc_n_viola_diso viola bot [a] level (length pdl) pdl c top
                (match t with [] => true | _ => false end);
      if sym c || Nat.even level
      then lay c pdl (S level) t (put_under a level pdl bot) top v
      else lay c pdl (S level) t bot (put_over a level pdl top) v
  end.

(** the counter of every panel is the number of disorientation violations of its
    stacking sequence *)
Definition exact (delta : Z) (viola : list Z) (stacks : list (list Z)) : Prop :=
  Forall2 (fun v s => counts v (diso_bad_at delta s)) viola stacks.

Definition mirrored (bot : list (list Z)) : list (list Z) := map (fun b => b ++ rev b) bot.
(** the last ply of the half is the middle ply *)
Definition mirrored_middle (bot : list (list Z)) : list (list Z) :=
  map (fun b => b ++ tl (rev b)) bot.
Definition joined_halves (bot top : list (list Z)) : list (list Z) :=
  map (fun p : list Z * list Z => fst p ++ snd p) (List.combine bot top).

Definition covers (pdl : list (list Z)) (levels : nat) : Prop :=
  Forall (fun row : list Z => (levels <= length row)%nat) pdl.

(* ------------------------------------------------------------------ *)
(** * Counting violations by recursion *)

Definition far (delta a b : Z) : Z := if is_diso a b delta then 0 else 1.

Fixpoint dv (delta : Z) (l : list Z) : Z :=
  match l with
  | a :: t => match t with b :: _ => far delta a b + dv delta t | [] => 0 end
  | [] => 0
  end.

Lemma dv_cons delta a b t : dv delta (a :: b :: t) = far delta a b + dv delta (b :: t).
Proof. reflexivity. Qed.

Lemma dv_app delta l x y m : dv delta (l ++ x :: y :: m) = dv delta (l ++ [x]) + far delta x y + dv delta (y :: m).
Proof.
  induction l as [|h l IH].
  - cbn [app]. rewrite dv_cons. cbn [dv]. lia.
  - destruct l as [|h' l]; cbn [app] in *; rewrite !dv_cons, ?IH; cbn [dv]; lia.
Qed.

Lemma dv_snoc delta l x y : dv delta ((l ++ [x]) ++ [y]) = dv delta (l ++ [x]) + far delta x y.
Proof. rewrite <- app_assoc; cbn [app]. rewrite dv_app. cbn [dv]. lia. Qed.

Lemma far_comm delta a b : far delta a b = far delta b a.
Proof. unfold far; now rewrite is_diso_comm. Qed.

Lemma far_refl delta a : 0 <= delta -> far delta a a = 0.
Proof.
  intros H; unfold far, is_diso. rewrite Z.sub_diag. change (Z.abs 0) with 0.
  assert (delta <? 0 = false) as -> by (apply Z.ltb_ge; lia). reflexivity.
Qed.

Lemma dv_rev delta l : dv delta (rev l) = dv delta l.
Proof.
  induction l as [|a l IH]; [reflexivity|]. destruct l as [|b l]; [reflexivity|].
  cbn [rev] in *. rewrite dv_snoc, IH, dv_cons. rewrite (far_comm delta b a). lia.
Qed.

Lemma dv_mirror delta l : 0 <= delta -> dv delta (l ++ rev l) = 2 * dv delta l.
Proof.
  intros H. destruct l as [|x l] using rev_ind; [reflexivity|]. clear IHl.
  rewrite rev_app_distr; cbn [rev app]. rewrite <- app_assoc; cbn [app].
  rewrite dv_app, far_refl by exact H.
  replace (x :: rev l) with (rev (l ++ [x])) by (rewrite rev_app_distr; reflexivity).
  rewrite dv_rev. lia.
Qed.

Lemma dv_middle delta l : dv delta (l ++ tl (rev l)) = 2 * dv delta l.
Proof.
  destruct l as [|x l] using rev_ind; [reflexivity|]. clear IHl.
  rewrite rev_app_distr; cbn [rev app tl].
  destruct l as [|y l] using rev_ind; [reflexivity|]. clear IHl.
  rewrite rev_app_distr; cbn [rev app].
  replace (((l ++ [y]) ++ [x]) ++ y :: rev l) with ((l ++ [y]) ++ x :: y :: rev l) by (rewrite <- !app_assoc; reflexivity).
  rewrite dv_app, (dv_snoc delta l y x).
  replace (y :: rev l) with (rev (l ++ [y])) by (rewrite rev_app_distr; reflexivity).
  rewrite dv_rev, (far_comm delta x y). lia.
Qed.

Lemma dv_nb delta l :
  dv delta l = nb_true (map (fun i => negb (is_diso (nth i l 0) (nth (i + 1) l 0) delta)) (seq 0 (length l - 1))).
Proof.
  induction l as [|a l IH]; [reflexivity|]. destruct l as [|b l]; [reflexivity|].
  rewrite dv_cons, IH. cbn [length]. replace (S (S (length l)) - 1)%nat with (S (length l)) by lia.
  replace (S (length l) - 1)%nat with (length l) by lia.
  cbn [seq map]. rewrite <- seq_shift, map_map. unfold nb_true, far.
  cbn [nth Nat.add]. unfold countb; cbn [filter]. destruct (is_diso a b delta); cbn [negb]; cbn [length]; lia.
Qed.

Lemma dv_counts delta l : Forall angle_ok l -> counts (dv delta l) (diso_bad_at delta l).
Proof.
  intros H. rewrite dv_nb.
  destruct (counts_filter (fun i => negb (is_diso (nth i l 0) (nth (i + 1) l 0) delta)) (length l - 1)) as [s [Hn [Hi Hc]]].
  exists s; repeat split; auto; intros X.
  - apply Hi in X; apply diso_bad_at_nth; auto. destruct X as [H1 H2]; split; auto; apply negb_true_iff; exact H2.
  - apply Hi; apply diso_bad_at_nth in X; auto. destruct X as [H1 H2]; split; auto; apply negb_true_iff; exact H2.
Qed.

(* ------------------------------------------------------------------ *)
(** * The loop over the panels *)

Lemma upd_same {A} i (l : list A) d : upd i (nth i l d) l = l.
Proof. revert i; induction l as [|h t IH]; intros [|i]; cbn; auto. now rewrite IH. Qed.

Lemma bump_ok i k n : (i < length n)%nat -> bump i k n = Ok (upd i (nth i n 0 + k) n).
Proof. intros H; unfold bump. rewrite (get_ok n i 0 H). reflexivity. Qed.

Lemma each_app {S} (f : nat -> S -> result S) a b st :
  each f (a ++ b) st = do st' <- each f a st; each f b st'.
Proof.
  revert st; induction a as [|i a IH]; intros st; [reflexivity|]. cbn [app each].
  destruct (f i st); cbn [bind]; [apply IH|reflexivity].
Qed.

Lemma each_bump (f : nat -> list Z -> result (list Z)) (d : nat -> Z) n m :
  (m <= length n)%nat ->
  (forall p v, (p < m)%nat -> length v = length n -> f p v = Ok (upd p (nth p v 0 + d p) v)) ->
  exists r, each f (seq 0 m) n = Ok r /\ length r = length n /\
    (forall p, nth p r 0 = nth p n 0 + (if Nat.ltb p m then d p else 0)).
Proof.
  intros Hm Hf. induction m as [|m IH].
  - exists n; split; [reflexivity|]; split; auto. intros p; destruct (Nat.ltb_spec p 0); lia.
  - destruct IH as (r & E & L & N); [lia|intros; apply Hf; lia|].
    replace (S m) with (m + 1)%nat by lia. rewrite seq_app, each_app, E. cbn [bind Nat.add seq each].
    rewrite Hf by lia. cbn [bind]. eexists; split; [reflexivity|]. rewrite upd_length. split; [lia|].
    intros p. rewrite nth_upd, N.
    destruct (Nat.eqb_spec m p); cbn [andb].
    + subst p. destruct (Nat.ltb_spec m (length r)); [|lia]. destruct (Nat.ltb_spec m m); [lia|]. destruct (Nat.ltb_spec m (m + 1)); lia.
    + rewrite N. destruct (Nat.ltb_spec p m), (Nat.ltb_spec p (m + 1)); lia.
Qed.

Lemma drop_ok pdl p level : (p < length pdl)%nat -> (level < length (nth p pdl []))%nat ->
  drop_at pdl p level = Ok (nth level (nth p pdl []) 0).
Proof. intros H H'. unfold drop_at. rewrite (get_ok pdl p [] H). cbn [bind]. apply get_ok, H'. Qed.

Lemma get_last {A} (l : list A) x : get (l ++ [x]) (-1) = Ok x.
Proof. unfold get; now rewrite py_get_last. Qed.

Lemma get_first {A} (l : list A) x : get (x :: l) 0 = Ok x.
Proof. apply (get_ok (x :: l) 0 x). cbn; lia. Qed.

Definition kept (pdl : list (list Z)) (p level : nat) : bool := 0 <=? nth level (nth p pdl []) 0.

(** what the new ply adds under a half / over a half *)
Definition add_under delta (s : list Z) a : Z := dv delta (s ++ [a]) - dv delta s.
Definition add_over delta (s : list Z) a : Z := dv delta (a :: s) - dv delta s.

Lemma noop p (v : list Z) : @Ok (list Z) v = Ok (upd p (nth p v 0 + 0) v).
Proof. rewrite Z.add_0_r, upd_same; reflexivity. Qed.

Lemma bottom_ok bot a level pdl c p v :
  (p < length pdl)%nat -> length bot = length pdl -> length v = length pdl ->
  covers pdl (S level) ->
  diso_bottom bot [a] level pdl c p v =
  Ok (upd p (nth p v 0 + (if kept pdl p level then (if sym c then 2 else 1) * add_under (delta_angle c) (nth p bot []) a else 0)) v).
Proof.
  intros Hp Hb Hv C. unfold diso_bottom.
  rewrite drop_ok; [|exact Hp|unfold covers in C; rewrite Forall_forall in C; apply C, nth_In, Hp].
  cbn [bind]. unfold kept. destruct (0 <=? nth level (nth p pdl []) 0); [|apply noop].
  rewrite (get_ok bot p []) by lia. cbn [bind].
  destruct (nth p bot []) as [|x s] using rev_ind.
  - unfold add_under; cbn [dv app]. rewrite Z.sub_diag, Z.mul_0_r. apply noop.
  - clear IHs. rewrite get_first; cbn [bind]. rewrite get_last; cbn [bind].
    destruct (s ++ [x]) as [|y t] eqn:E; [destruct s; discriminate|]. rewrite <- E. clear y t E.
    unfold add_under. rewrite dv_snoc. rewrite is_diso_comm.
    unfold far. destruct (is_diso x a (delta_angle c)).
    + replace (_ * _) with 0 by (destruct (sym c); lia). apply noop.
    + rewrite bump_ok by lia. do 2 f_equal. destruct (sym c); lia.
Qed.

Lemma top_ok top a level pdl c p v :
  (p < length pdl)%nat -> length top = length pdl -> length v = length pdl ->
  covers pdl (S level) ->
  diso_top top [a] level pdl c p v =
  Ok (upd p (nth p v 0 + (if kept pdl p level then add_over (delta_angle c) (nth p top []) a else 0)) v).
Proof.
  intros Hp Hb Hv C. unfold diso_top.
  rewrite drop_ok; [|exact Hp|unfold covers in C; rewrite Forall_forall in C; apply C, nth_In, Hp].
  cbn [bind]. unfold kept. destruct (0 <=? nth level (nth p pdl []) 0); [|apply noop].
  rewrite (get_ok top p []) by lia. cbn [bind].
  destruct (nth p top []) as [|x s].
  - unfold add_over; cbn [dv]. rewrite Z.sub_diag. apply noop.
  - rewrite !get_first; cbn [bind].
    unfold add_over. rewrite dv_cons. unfold far. destruct (is_diso a x (delta_angle c)).
    + replace (_ - _) with 0 by lia. apply noop.
    + rewrite bump_ok by lia. do 2 f_equal. lia.
Qed.

Lemma junction_ok bot top a level pdl c p v :
  (p < length pdl)%nat -> length bot = length pdl -> length top = length pdl -> length v = length pdl ->
  covers pdl (S level) -> nth p bot [] <> [] -> nth p top [] <> [] ->
  diso_junction bot [a] level pdl c top p v =
  Ok (upd p (nth p v 0 + (if kept pdl p level
      then if Nat.even level then add_over (delta_angle c) (nth p top []) a
           else add_under (delta_angle c) (nth p bot []) a
      else dv (delta_angle c) (nth p bot [] ++ nth p top []) - dv (delta_angle c) (nth p bot []) - dv (delta_angle c) (nth p top []))) v).
Proof.
  intros Hp Hb Ht Hv C Nb Nt. unfold diso_junction.
  rewrite drop_ok; [|exact Hp|unfold covers in C; rewrite Forall_forall in C; apply C, nth_In, Hp].
  cbn [bind]. unfold kept.
  rewrite (get_ok bot p []) by lia. rewrite (get_ok top p []) by lia. cbn [bind].
  destruct (nth p top []) as [|y t]; [congruence|]. clear Nt.
  destruct (nth p bot []) as [|x s] using rev_ind; [congruence|]. clear IHs Nb.
  rewrite !get_first, get_last. cbn [bind].
  destruct (0 <=? nth level (nth p pdl []) 0).
  - destruct (Nat.even level); cbn [bind].
    + unfold add_over. rewrite dv_cons. unfold far. destruct (is_diso a y (delta_angle c)).
      * replace (_ - _) with 0 by lia. apply noop.
      * rewrite bump_ok by lia. do 2 f_equal. lia.
    + unfold add_under. rewrite dv_snoc, is_diso_comm. unfold far. destruct (is_diso x a (delta_angle c)).
      * replace (_ - _) with 0 by lia. apply noop.
      * rewrite bump_ok by lia. do 2 f_equal. lia.
  - cbn [bind]. rewrite <- app_assoc; cbn [app]. rewrite dv_app. unfold far. destruct (is_diso x y (delta_angle c)).
    + replace (_ - _) with 0 by lia. apply noop.
    + rewrite bump_ok by lia. do 2 f_equal. lia.
Qed.

Lemma put_under_length a level pdl h : length h = length pdl -> length (put_under a level pdl h) = length pdl.
Proof. intros H; unfold put_under; rewrite map_length, combine_length; lia. Qed.

Lemma put_over_length a level pdl h : length h = length pdl -> length (put_over a level pdl h) = length pdl.
Proof. intros H; unfold put_over; rewrite map_length, combine_length; lia. Qed.

Lemma put_under_nth a level pdl h p : length h = length pdl -> (p < length pdl)%nat ->
  nth p (put_under a level pdl h) [] = if kept pdl p level then nth p h [] ++ [a] else nth p h [].
Proof.
  intros H L; unfold put_under. set (f := fun rh : list Z * list Z => let (row, h) := rh in if 0 <=? nth level row 0 then h ++ [a] else h).
  rewrite (nth_indep _ [] (f ([], []))) by (rewrite map_length, combine_length; lia).
  rewrite (map_nth f), combine_nth by lia. reflexivity.
Qed.

Lemma put_over_nth a level pdl h p : length h = length pdl -> (p < length pdl)%nat ->
  nth p (put_over a level pdl h) [] = if kept pdl p level then a :: nth p h [] else nth p h [].
Proof.
  intros H L; unfold put_over. set (f := fun rh : list Z * list Z => let (row, h) := rh in if 0 <=? nth level row 0 then a :: h else h).
  rewrite (nth_indep _ [] (f ([], []))) by (rewrite map_length, combine_length; lia).
  rewrite (map_nth f), combine_nth by lia. reflexivity.
Qed.

(** counters as sums over both halves *)
Definition halved (delta : Z) (w : Z) (v : list Z) (bot top : list (list Z)) : Prop :=
  forall p, (p < length v)%nat -> nth p v 0 = w * dv delta (nth p bot []) + dv delta (nth p top []).

Lemma step_sym c pdl level a bot top v last :
  sym c = true -> covers pdl (S level) -> length bot = length pdl -> length v = length pdl ->
  (forall p, (p < length pdl)%nat -> nth p v 0 = 2 * dv (delta_angle c) (nth p bot [])) ->
  exists v', calc_n_viola_diso v bot [a] level (length pdl) pdl c top last = Ok v' /\ length v' = length pdl /\
    (forall p, (p < length pdl)%nat -> nth p v' 0 = 2 * dv (delta_angle c) (nth p (put_under a level pdl bot) [])).
Proof.
  intros S C Lb Lv H. unfold calc_n_viola_diso. rewrite S. cbn [negb andb orb bind].
  destruct (each_bump (diso_bottom bot [a] level pdl c) (fun p => if kept pdl p level then (if sym c then 2 else 1) * add_under (delta_angle c) (nth p bot []) a else 0) v (length pdl)) as (r & E & L & N).
  - lia.
  - intros p w Hp Hw. apply bottom_ok; auto; lia.
  - rewrite E. exists r. split; [reflexivity|]. split; [lia|]. intros p Hp. rewrite N, H, put_under_nth by auto.
    destruct (Nat.ltb_spec p (length pdl)); [|lia]. rewrite S. unfold add_under. destruct (kept pdl p level); lia.
Qed.

Lemma step_asym c pdl level a bot top v :
  sym c = false -> covers pdl (S level) -> length bot = length pdl -> length top = length pdl -> length v = length pdl ->
  (forall p, (p < length pdl)%nat -> nth p v 0 = dv (delta_angle c) (nth p bot []) + dv (delta_angle c) (nth p top [])) ->
  exists v', calc_n_viola_diso v bot [a] level (length pdl) pdl c top false = Ok v' /\ length v' = length pdl /\
    (forall p, (p < length pdl)%nat -> nth p v' 0 =
       dv (delta_angle c) (nth p (if Nat.even level then put_under a level pdl bot else bot) [])
       + dv (delta_angle c) (nth p (if Nat.even level then top else put_over a level pdl top) [])).
Proof.
  intros S C Lb Lt Lv H. unfold calc_n_viola_diso. rewrite S. cbn [negb andb orb bind].
  destruct (Nat.even level) eqn:Ev.
  - destruct (each_bump (diso_bottom bot [a] level pdl c) (fun p => if kept pdl p level then (if sym c then 2 else 1) * add_under (delta_angle c) (nth p bot []) a else 0) v (length pdl)) as (r & E & L & N).
    + lia.
    + intros p w Hp Hw. apply bottom_ok; auto; lia.
    + rewrite E. exists r. split; [reflexivity|]. split; [lia|]. intros p Hp. rewrite N, H, put_under_nth by auto.
      destruct (Nat.ltb_spec p (length pdl)); [|lia]. rewrite S. unfold add_under. destruct (kept pdl p level); lia.
  - destruct (each_bump (diso_top top [a] level pdl c) (fun p => if kept pdl p level then add_over (delta_angle c) (nth p top []) a else 0) v (length pdl)) as (r & E & L & N).
    + lia.
    + intros p w Hp Hw. apply top_ok; auto; lia.
    + rewrite E. exists r. split; [reflexivity|]. split; [lia|]. intros p Hp. rewrite N, H, put_over_nth by auto.
      destruct (Nat.ltb_spec p (length pdl)); [|lia]. unfold add_over. destruct (kept pdl p level); lia.
Qed.

Lemma dv_junction delta b t a : b <> [] -> t <> [] ->
  dv delta ((b ++ [a]) ++ t) = add_under delta b a + add_over delta t a + dv delta b + dv delta t.
Proof.
  intros Nb Nt. destruct t as [|y t]; [congruence|]. destruct b as [|x b] using rev_ind; [congruence|]. clear IHb.
  rewrite <- (app_assoc (b ++ [x])); cbn [app]. rewrite dv_app, dv_snoc.
  unfold add_under, add_over. rewrite dv_snoc, dv_cons. lia.
Qed.

Lemma step_last c pdl level a bot top v :
  sym c = false -> covers pdl (S level) -> length bot = length pdl -> length top = length pdl -> length v = length pdl ->
  (forall p, (p < length pdl)%nat -> nth p bot [] <> [] /\ nth p top [] <> []) ->
  (forall p, (p < length pdl)%nat -> nth p v 0 = dv (delta_angle c) (nth p bot []) + dv (delta_angle c) (nth p top [])) ->
  exists v', calc_n_viola_diso v bot [a] level (length pdl) pdl c top true = Ok v' /\ length v' = length pdl /\
    (forall p, (p < length pdl)%nat -> nth p v' 0 =
       dv (delta_angle c) (nth p (if Nat.even level then put_under a level pdl bot else bot) []
       ++ nth p (if Nat.even level then top else put_over a level pdl top) [])).
Proof.
  intros S C Lb Lt Lv Ne H. unfold calc_n_viola_diso. rewrite S. cbn [negb andb orb].
  destruct (each_bump (diso_junction bot [a] level pdl c top) (fun p => if kept pdl p level
      then if Nat.even level then add_over (delta_angle c) (nth p top []) a
           else add_under (delta_angle c) (nth p bot []) a
      else dv (delta_angle c) (nth p bot [] ++ nth p top []) - dv (delta_angle c) (nth p bot []) - dv (delta_angle c) (nth p top []))
      v (length pdl)) as (w & Ew & Lw & Nw).
  { lia. }
  { intros p w Hp Hw. destruct (Ne p Hp). apply junction_ok; auto; lia. }
  rewrite Ew. cbn [bind].
  destruct (Nat.even level) eqn:Ev.
  - destruct (each_bump (diso_bottom bot [a] level pdl c) (fun p => if kept pdl p level then (if sym c then 2 else 1) * add_under (delta_angle c) (nth p bot []) a else 0) w (length pdl)) as (r & E & L & N).
    + lia.
    + intros p x Hp Hw. apply bottom_ok; auto; lia.
    + rewrite E. exists r. split; [reflexivity|]. split; [lia|]. intros p Hp. rewrite N, Nw, H, put_under_nth by auto.
      destruct (Ne p Hp) as [N1 N2].
      destruct (Nat.ltb_spec p (length pdl)); [|lia]. rewrite S. destruct (kept pdl p level); [rewrite dv_junction by auto|]; lia.
  - destruct (each_bump (diso_top top [a] level pdl c) (fun p => if kept pdl p level then add_over (delta_angle c) (nth p top []) a else 0) w (length pdl)) as (r & E & L & N).
    + lia.
    + intros p x Hp Hw. apply top_ok; auto; lia.
    + rewrite E. exists r. split; [reflexivity|]. split; [lia|]. intros p Hp. rewrite N, Nw, H, put_over_nth by auto.
      destruct (Ne p Hp) as [N1 N2].
      destruct (Nat.ltb_spec p (length pdl)); [|lia]. destruct (kept pdl p level); [|lia].
      change (a :: nth p top []) with ([a] ++ nth p top []). rewrite app_assoc, dv_junction by auto. lia.
Qed.

(* ------------------------------------------------------------------ *)
(** * C82: the disorientation counters *)

(** the counter of every panel is the number of violations in its two halves *)
Definition exact_halves (delta : Z) (viola : list Z) (bot top : list (list Z)) : Prop :=
  Forall2 (fun v (h : list Z * list Z) =>
             exists m k, counts m (diso_bad_at delta (fst h)) /\
                         counts k (diso_bad_at delta (snd h)) /\ v = m + k)
          viola (List.combine bot top).

(** panel by panel, the half receives a ply before the last level if it has none *)
Definition reached (parity : bool) (level n : nat) (pdl halves : list (list Z)) : Prop :=
  Forall2 (fun row h : list Z =>
             h <> [] \/ exists l, (level <= l)%nat /\ (S l < level + n)%nat /\
                                  Nat.even l = parity /\ 0 <= nth l row 0) pdl halves.

Definition angles_ok (stacks : list (list Z)) : Prop := Forall (Forall angle_ok) stacks.

Lemma angles_nth stacks p : angles_ok stacks -> Forall angle_ok (nth p stacks []).
Proof.
  intros H. destruct (nth_in_or_default p stacks []) as [I| ->]; [|constructor].
  unfold angles_ok in H; rewrite Forall_forall in H; auto.
Qed.

Lemma angles_of_nth stacks : (forall p, (p < length stacks)%nat -> Forall angle_ok (nth p stacks [])) -> angles_ok stacks.
Proof.
  intros H; apply Forall_forall; intros s I. destruct (In_nth _ _ [] I) as (p & L & <-); auto.
Qed.

Lemma put_under_angles a level pdl h : length h = length pdl -> angle_ok a -> angles_ok h -> angles_ok (put_under a level pdl h).
Proof.
  intros L A H. apply angles_of_nth. rewrite put_under_length by exact L. intros p Hp. rewrite put_under_nth by auto.
  pose proof (angles_nth h p H). destruct (kept pdl p level); auto. apply Forall_app; split; auto.
Qed.

Lemma put_over_angles a level pdl h : length h = length pdl -> angle_ok a -> angles_ok h -> angles_ok (put_over a level pdl h).
Proof.
  intros L A H. apply angles_of_nth. rewrite put_over_length by exact L. intros p Hp. rewrite put_over_nth by auto.
  pose proof (angles_nth h p H). destruct (kept pdl p level); auto.
Qed.

Lemma F2_nth {A B} (P : A -> B -> Prop) l m da db : Forall2 P l m ->
  length l = length m /\ forall p, (p < length l)%nat -> P (nth p l da) (nth p m db).
Proof.
  induction 1 as [|x y l m H F [L N]]; [split; [reflexivity|cbn; lia]|].
  split; [cbn; lia|]. intros [|p] Hp; cbn in *; [exact H|apply N; lia].
Qed.

Lemma nth_F2 {A B} (P : A -> B -> Prop) l m da db : length l = length m ->
  (forall p, (p < length l)%nat -> P (nth p l da) (nth p m db)) -> Forall2 P l m.
Proof.
  revert m; induction l as [|x l IH]; intros [|y m] L H; try discriminate; constructor.
  - apply (H 0%nat); cbn; lia.
  - apply IH; [cbn in L; lia|]. intros p Hp; apply (H (S p)); cbn; lia.
Qed.

Lemma rev_ok (l : list Z) : Forall angle_ok l -> Forall angle_ok (rev l).
Proof. intros H; apply Forall_forall; intros x I; rewrite <- in_rev in I. rewrite Forall_forall in H; auto. Qed.

Lemma tl_ok (l : list Z) : Forall angle_ok l -> Forall angle_ok (tl l).
Proof. intros H; destruct H; cbn; auto. Qed.

Lemma mirror_nth (bot : list (list Z)) p : nth p (mirrored bot) [] = nth p bot [] ++ rev (nth p bot []).
Proof. exact (map_nth (fun b : list Z => b ++ rev b) bot [] p). Qed.

Lemma middle_nth (bot : list (list Z)) p : nth p (mirrored_middle bot) [] = nth p bot [] ++ tl (rev (nth p bot [])).
Proof. exact (map_nth (fun b : list Z => b ++ tl (rev b)) bot [] p). Qed.

Lemma exact_mirror delta v bot : 0 <= delta -> angles_ok bot ->
  (exact delta v (mirrored bot) <-> length v = length bot /\ forall p, (p < length bot)%nat -> nth p v 0 = 2 * dv delta (nth p bot [])).
Proof.
  intros D A. split.
  - intros E. destruct (F2_nth _ _ _ 0 [] E) as [L N]. unfold mirrored in L; rewrite map_length in L. split; [exact L|].
    intros p Hp. specialize (N p ltac:(lia)). rewrite mirror_nth in N. rewrite <- dv_mirror by exact D.
    eapply counts_unique; [exact N|]. pose proof (angles_nth bot p A). apply dv_counts, Forall_app; split; auto using rev_ok.
  - intros [L N]. apply (nth_F2 _ _ _ 0 []); [unfold mirrored; rewrite map_length; exact L|].
    intros p Hp. rewrite mirror_nth, N by lia. rewrite <- dv_mirror by exact D.
    pose proof (angles_nth bot p A). apply dv_counts, Forall_app; split; auto using rev_ok.
Qed.

Lemma exact_middle delta v bot : angles_ok bot -> length v = length bot ->
  (forall p, (p < length bot)%nat -> nth p v 0 = 2 * dv delta (nth p bot [])) ->
  exact delta v (mirrored_middle bot).
Proof.
  intros A L N. apply (nth_F2 _ _ _ 0 []); [unfold mirrored_middle; rewrite map_length; exact L|].
  intros p Hp. rewrite middle_nth, N by lia. rewrite <- dv_middle.
  pose proof (angles_nth bot p A). apply dv_counts, Forall_app; split; auto using rev_ok, tl_ok.
Qed.

(** C82: symmetric laminates.  Counters that are right for the plies already laid stay
    right, at every level and for every choice of angles and ply drops, and are the
    number of violations of the full symmetric laminate, with or without middle ply. *)
Theorem C82_symmetric : forall c pdl level angles bot top viola,
  sym c = true -> 0 <= delta_angle c ->
  covers pdl (level + length angles) -> length bot = length pdl ->
  angles_ok bot -> Forall angle_ok angles ->
  exact (delta_angle c) viola (mirrored bot) ->
  exists bot' viola',
    lay c pdl level angles bot top viola = Ok (bot', top, viola') /\
    exact (delta_angle c) viola' (mirrored bot') /\
    exact (delta_angle c) viola' (mirrored_middle bot').
Proof.
  intros c pdl level angles. revert level.
  induction angles as [|a t IH]; intros level bot top viola S D C Lb Ab Aa E.
  - exists bot, viola. split; [reflexivity|]. split; [exact E|].
    apply exact_mirror in E; auto. destruct E. apply exact_middle; auto.
  - inversion Aa as [|? ? A1 A2]; subst.
    destruct (proj1 (exact_mirror _ _ _ D Ab) E) as [L N].
    assert (Cl : covers pdl (Datatypes.S level)).
    { unfold covers in *. eapply Forall_impl; [|exact C]. cbn [length]. intros; lia. }
    destruct (step_sym c pdl level a bot top viola (match t with [] => true | _ => false end) S Cl Lb ltac:(lia)) as (v' & Ev & Lv & Nv).
    { intros p Hp; apply N; lia. }
    destruct (IH (Datatypes.S level) (put_under a level pdl bot) top v') as (b2 & v2 & E2 & X2); auto.
    + unfold covers in *. eapply Forall_impl; [|exact C]. cbn [length]. intros; lia.
    + rewrite put_under_length; auto.
    + apply put_under_angles; auto.
    + apply exact_mirror; [exact D|apply put_under_angles; auto|]. rewrite put_under_length by auto. split; auto.
    + exists b2, v2. split; [|exact X2]. cbn [lay]. rewrite Ev. cbn [bind]. rewrite S. exact E2.
Qed.

Lemma combine_nth2 (a b : list (list Z)) p : length a = length b -> nth p (List.combine a b) ([], []) = (nth p a [], nth p b []).
Proof. intros L; apply combine_nth, L. Qed.

Lemma halves_iff delta v bot top : length bot = length top -> angles_ok bot -> angles_ok top ->
  (exact_halves delta v bot top <-> length v = length bot /\ forall p, (p < length bot)%nat -> nth p v 0 = dv delta (nth p bot []) + dv delta (nth p top [])).
Proof.
  intros LL Ab At. unfold exact_halves. split.
  - intros E. destruct (F2_nth _ _ _ 0 ([], []) E) as [L N]. rewrite combine_length in L. split; [lia|].
    intros p Hp. destruct (N p ltac:(lia)) as (m & k & Hm & Hk & ->). rewrite combine_nth2 in Hm, Hk by exact LL. cbn [fst snd] in *.
    f_equal; eapply counts_unique; eauto; apply dv_counts, angles_nth; auto.
  - intros [L N]. apply (nth_F2 _ _ _ 0 ([], [])); [rewrite combine_length; lia|].
    intros p Hp. rewrite combine_nth2 by exact LL. cbn [fst snd]. exists (dv delta (nth p bot [])), (dv delta (nth p top [])).
    split; [apply dv_counts, angles_nth; auto|]. split; [apply dv_counts, angles_nth; auto|]. apply N; lia.
Qed.

Lemma joined_nth bot top p : length bot = length top -> nth p (joined_halves bot top) [] = nth p bot [] ++ nth p top [].
Proof.
  intros L. unfold joined_halves. etransitivity; [exact (map_nth (fun q : list Z * list Z => fst q ++ snd q) (List.combine bot top) ([], []) p)|].
  rewrite combine_nth2 by exact L. reflexivity.
Qed.

Lemma exact_joined delta v bot top : length bot = length top -> angles_ok bot -> angles_ok top -> length v = length bot ->
  (forall p, (p < length bot)%nat -> nth p v 0 = dv delta (nth p bot [] ++ nth p top [])) -> exact delta v (joined_halves bot top).
Proof.
  intros LL Ab At L N. apply (nth_F2 _ _ _ 0 []); [unfold joined_halves; rewrite map_length, combine_length; lia|].
  intros p Hp. rewrite joined_nth by exact LL. rewrite N by lia. apply dv_counts, Forall_app; split; apply angles_nth; auto.
Qed.

Lemma reached_step par level n pdl halves halves' : length halves' = length pdl ->
  (forall p, (p < length pdl)%nat -> nth p halves [] <> [] -> nth p halves' [] <> []) ->
  (Nat.even level = par -> forall p, (p < length pdl)%nat -> kept pdl p level = true -> nth p halves' [] <> []) ->
  (0 < n)%nat ->
  reached par level (S n) pdl halves -> reached par (S level) n pdl halves'.
Proof.
  intros L H1 H2 Hn R. destruct (F2_nth _ _ _ [] [] R) as [LR NR]. apply (nth_F2 _ _ _ [] []); [lia|].
  intros p Hp. destruct (NR p Hp) as [N|(l & G1 & G2 & G3 & G4)]; [left; auto|].
  destruct (Nat.eq_dec l level) as [->|Ne].
  - left. apply H2; auto. unfold kept. apply Z.leb_le; exact G4.
  - right. exists l. repeat split; auto; lia.
Qed.

(** C82: asymmetric laminates.  The counters of the two halves, and at the last level
    the junction of the halves, add up to the number of violations of the laminate,
    provided that every panel has plies on both sides before the last level. *)
Theorem C82_asymmetric_partial : forall c pdl level angles bot top viola,
  sym c = false -> angles <> [] ->
  covers pdl (level + length angles) ->
  length bot = length pdl -> length top = length pdl ->
  angles_ok bot -> angles_ok top -> Forall angle_ok angles ->
  reached true level (length angles) pdl bot ->
  reached false level (length angles) pdl top ->
  exact_halves (delta_angle c) viola bot top ->
  exists bot' top' viola',
    lay c pdl level angles bot top viola = Ok (bot', top', viola') /\
    exact (delta_angle c) viola' (joined_halves bot' top').
Proof.
  intros c pdl level angles. revert level.
  induction angles as [|a t IH]; intros level bot top viola S Ne C Lb Lt Ab At Aa Rb Rt E; [congruence|]. clear Ne.
  inversion Aa as [|? ? A1 A2]; subst.
  destruct (proj1 (halves_iff _ _ _ _ (eq_trans Lb (eq_sym Lt)) Ab At) E) as [L N].
  assert (Cl : covers pdl (Datatypes.S level)).
  { unfold covers in *. eapply Forall_impl; [|exact C]. cbn [length]. intros; lia. }
  assert (Ub : length (put_under a level pdl bot) = length pdl) by (apply put_under_length; auto).
  assert (Ut : length (put_over a level pdl top) = length pdl) by (apply put_over_length; auto).
  assert (Ub' : angles_ok (put_under a level pdl bot)) by (apply put_under_angles; auto).
  assert (Ut' : angles_ok (put_over a level pdl top)) by (apply put_over_angles; auto).
  cbn [lay]. rewrite S. cbn [orb].
  destruct t as [|a2 t].
  - cbn [length] in *.
    destruct (step_last c pdl level a bot top viola S Cl Lb Lt ltac:(lia)) as (v' & Ev & Lv & Nv).
    { intros p Hp. destruct (F2_nth _ _ _ [] [] Rb) as [_ Xb]. destruct (F2_nth _ _ _ [] [] Rt) as [_ Xt].
      destruct (Xb p Hp) as [X|(l & ? & ? & _)]; [|lia]. destruct (Xt p Hp) as [Y|(l & ? & ? & _)]; [|lia]. split; auto. }
    { intros p Hp; apply N; lia. }
    rewrite Ev. cbn [bind].
    destruct (Nat.even level) eqn:Ev1; cbn [lay].
    + exists (put_under a level pdl bot), top, v'. split; [reflexivity|]. apply exact_joined; auto; try lia. intros p Hp; apply Nv; lia.
    + exists bot, (put_over a level pdl top), v'. split; [reflexivity|]. apply exact_joined; auto; try lia. intros p Hp; apply Nv; lia.
  - destruct (step_asym c pdl level a bot top viola S Cl Lb Lt ltac:(lia)) as (v' & Ev & Lv & Nv).
    { intros p Hp; apply N; lia. }
    rewrite Ev. cbn [bind].
    assert (C2 : covers pdl (Datatypes.S level + length (a2 :: t))).
    { unfold covers in *. eapply Forall_impl; [|exact C]. cbn [length]. intros; lia. }
    destruct (Nat.even level) eqn:Ev1.
    + apply IH; auto; try discriminate.
      * apply (reached_step true level (length (a2 :: t)) pdl bot); auto; [| |cbn; lia].
        -- intros p Hp Hx. rewrite put_under_nth by auto. destruct (kept pdl p level); auto. destruct (nth p bot []); discriminate.
        -- intros _ p Hp Hk. rewrite put_under_nth, Hk by auto. destruct (nth p bot []); discriminate.
      * apply (reached_step false level (length (a2 :: t)) pdl top); auto; [intros X; congruence|cbn; lia].
      * apply halves_iff; auto; [lia|]. split; [lia|]. intros p Hp; apply Nv; lia.
    + apply IH; auto; try discriminate.
      * apply (reached_step true level (length (a2 :: t)) pdl bot); auto; [intros X; congruence|cbn; lia].
      * apply (reached_step false level (length (a2 :: t)) pdl top); auto; [| |cbn; lia].
        -- intros p Hp Hx. rewrite put_over_nth by auto. destruct (kept pdl p level); auto. discriminate.
        -- intros _ p Hp Hk. rewrite put_over_nth, Hk by auto. discriminate.
      * apply halves_iff; auto; [lia|]. split; [lia|]. intros p Hp; apply Nv; lia.
Qed.

Definition cons_asym : cons :=
  {| sym := false; bal := true; ipo := true; oopo := false; dam_tol := false; dam_tol_rule := 1;
     covering := false; n_covering := 1; rule_10_percent := false; rule_10_Abdalla := false; percent_Abdalla := 0%Q;
     percent_0 := 0%Q; percent_45 := 0%Q; percent_90 := 0%Q; percent_135 := 0%Q; percent_45_135 := 0%Q; percent_tot := 0%Q;
     diso := true; delta_angle := 45; contig := true; n_contig := 2; n_contig_c := Some 2%nat;
     set_of_angles := [-45; 0; 45; 90]; angles_bal := [(45, 2%nat, 0%nat)]; pdl_spacing := false; min_drop := 0 |}.

(** Without plies on both sides the last level does not count: it raises. *)
Theorem C82_one_sided_refuted : exists c pdl angles,
  sym c = false /\ covers pdl (length angles) /\ Forall angle_ok angles /\
  lay c pdl 0 angles (map (fun _ => []) pdl) (map (fun _ => []) pdl) (map (fun _ => 0) pdl) = Err IndexError.
Proof.
  exists cons_asym, [[0; 1]; [0; -1]], [0; 90]. split; [reflexivity|]. split; [repeat constructor|].
  split; [repeat constructor; lia|]. vm_compute. reflexivity.
Qed.

(** penalties: coefficient times number of violations per stacking sequence divided by
    the normalisation; nothing when the rule is off *)
Definition penalised (coeff norm : Q) (rows : list (list Z)) (pens : list Q) : Prop :=
  Forall2 (fun row pen => (pen * norm == coeff * inject_Z (sumZ row))%Q) rows pens.

Theorem C82_penalties : forall n viola coeff norm,
  ~ (norm == 0)%Q ->
  (exists pens, calc_penalty_diso n (Some viola) true coeff norm = Ok pens /\
                penalised coeff norm viola pens) /\
  (exists pens, penalty_contig n (Some viola) true coeff norm = Ok pens /\
                penalised coeff norm viola pens) /\
  (forall o, calc_penalty_diso n o false coeff norm = Ok (repeat 0%Q n) /\
             penalty_contig n o false coeff norm = Ok (repeat 0%Q n)).
Proof.
  intros n viola coeff norm N.
  assert (P : penalised coeff norm viola (map (fun row => coeff * inject_Z (sumZ row) / norm)%Q viola)).
  { unfold penalised. induction viola as [|row t IH]; cbn [map]; constructor; auto. field. exact N. }
  split; [eexists; split; [reflexivity|exact P]|]. split; [eexists; split; [reflexivity|exact P]|].
  intros o; split; reflexivity.
Qed.

(** both theorems apply to designs with violations and ply drops *)
Example C82_symmetric_example :
  exact 45 [0; 0] (mirrored [[]; []]) /\
  lay cons_ex [[0; 1; 2]; [0; -1; 1]] 0 [0; 45; 90] [[]; []] [] [0; 0]
    = Ok ([[0; 45; 90]; [0; 90]], [], [0; 2]).
Proof.
  split; [|vm_compute; reflexivity].
  apply exact_mirror; [lia|repeat constructor|]. split; [reflexivity|]. intros [|[|p]] H; cbn in *; try lia; reflexivity.
Qed.

Example C82_asymmetric_example :
  covers [[0; 1; 2; 3; 4]; [0; 1; -1; 2; -1]] 5 /\
  reached true 0 5 [[0; 1; 2; 3; 4]; [0; 1; -1; 2; -1]] [[]; []] /\
  reached false 0 5 [[0; 1; 2; 3; 4]; [0; 1; -1; 2; -1]] [[]; []] /\
  exact_halves 45 [0; 0] [[]; []] [[]; []] /\
  lay cons_asym [[0; 1; 2; 3; 4]; [0; 1; -1; 2; -1]] 0 [0; 0; 90; 45; 90] [[]; []] [[]; []] [0; 0]
    = Ok ([[0; 90; 90]; [0]], [[45; 0]; [45; 0]], [1; 0]).
Proof.
  split; [repeat constructor|].
  split. { constructor; [|constructor; [|constructor]]; right; exists 0%nat; cbn; repeat split; lia. }
  split. { constructor; [|constructor; [|constructor]]; right; exists 1%nat; cbn; repeat split; lia. }
  split; [|vm_compute; reflexivity].
  apply halves_iff; [reflexivity|repeat constructor|repeat constructor|].
  split; [reflexivity|]. intros [|[|p]] H; cbn in *; try lia; reflexivity.
Qed.

Print Assumptions C82_symmetric.
Print Assumptions C82_asymmetric_partial.
Print Assumptions C82_one_sided_refuted.
Print Assumptions C82_penalties.
