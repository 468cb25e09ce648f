(* PdlToolsProofs.v - specification and lemmas for PdlTools.v *)
From Verif Require Import Base Uniq Divers DiversProofs Spacing SpacingProofs Strip StripProofs StripGraph StripWeights Format FormatProofs PdlTools.
From Coq Require Import Lqa.
Local Open Scope Z_scope.

(* ------------------------------------------------------------------ *)
(** * Specification *)

(** [h] drops the same columns as [line]; its kept plies are numbered from [from] on *)
Definition numbered (from : Z) (line h : list Z) : Prop :=
  length h = length line /\
  forall j, (j < length line)%nat ->
    nth j h (-1) = if nth j line (-1) =? -1 then -1
                   else from + Z.of_nat (countb kept (firstn j line)).

(** the group tables present in a list of optional tables *)
Definition tables (cum : local_pdls) : list (list (list Z)) :=
  flat_map (fun o => match o with Some t => [t] | None => [] end) cum.

(** the lines of panel [i] in the given tables, one after the other *)
Definition panel_line (ts : list (list (list Z))) (i : nat) : list Z :=
  concat (map (fun t => nth i t []) ts).

(** the tables describe at least [n] panels with equally long lines *)
Definition tables_ok (n : nat) (ts : list (list (list Z))) : Prop :=
  forall t, In t ts -> (n <= length t)%nat /\ exists c, rect c t.

(** tables at the even (odd) places *)
Definition at_parity (b : bool) (k : nat) (l : local_pdls) : list (list (list Z)) :=
  tables (map snd (filter (fun e => Bool.eqb (Nat.even (fst e)) b) (combine (seq k (length l)) l))).

(* ------------------------------------------------------------------ *)
(** * renumber *)
Lemma renumber_length k l : length (renumber k l) = length l.
Proof. revert k; induction l as [|x t IH]; intros k; cbn [renumber length]; auto. destruct (kept x); cbn [length]; auto. Qed.

Lemma renumber_numbered k l : numbered k l (renumber k l).
Proof.
  split; [apply renumber_length|]. revert k; induction l as [|x t IH]; intros k j Hj; cbn [length] in Hj; [lia|].
  cbn [renumber]. destruct (kept x) eqn:E.
  - destruct j as [|j]; cbn [nth firstn].
    + apply kept_true in E; destruct (Z.eqb_spec x (-1)); [congruence|]. unfold countb; cbn; lia.
    + rewrite IH by lia. rewrite countb_cons, E. destruct (nth j t (-1) =? -1); lia.
  - destruct j as [|j]; cbn [nth firstn].
    + apply kept_false in E; subst; reflexivity.
    + rewrite IH by lia. rewrite countb_cons, E. reflexivity.
Qed.

Lemma numbered_unique k l h1 h2 : numbered k l h1 -> numbered k l h2 -> h1 = h2.
Proof.
  intros [L1 N1] [L2 N2]; apply (list_ext _ _ (-1)); [lia|].
  intros i Hi; rewrite N1, N2 by lia; reflexivity.
Qed.

Lemma renumber_kept k l : 0 <= k -> map kept (renumber k l) = map kept l.
Proof.
  revert k; induction l as [|x t IH]; intros k Hk; cbn [renumber map]; auto.
  destruct (kept x) eqn:E; cbn [map]; rewrite IH by lia; f_equal; auto.
  apply kept_true; lia.
Qed.

Lemma countb_kept_map l m : map kept l = map kept m -> countb kept l = countb kept m.
Proof.
  revert m; induction l as [|x t IH]; intros [|y m] H; cbn [map] in H; try discriminate; auto.
  injection H as H1 H2. rewrite !countb_cons, H1, (IH m H2); auto.
Qed.

Lemma renumber_countb k l : 0 <= k -> countb kept (renumber k l) = countb kept l.
Proof. intros; apply countb_kept_map, renumber_kept; auto. Qed.

Lemma kept_mark x : kept (mark x) = kept x.
Proof. unfold mark, kept; destruct (Z.eqb_spec x (-1)); reflexivity. Qed.

Lemma renumber_mark k l : renumber k (map mark l) = renumber k l.
Proof.
  revert k; induction l as [|x t IH]; intros k; cbn [map renumber]; auto.
  rewrite kept_mark. destruct (kept x) eqn:E; rewrite IH; f_equal.
  apply kept_false in E; subst; reflexivity.
Qed.

Lemma renumber_app k l m : renumber k (l ++ m) = renumber k l ++ renumber (k + Z.of_nat (countb kept l)) m.
Proof.
  revert k; induction l as [|x t IH]; intros k; cbn [app renumber].
  - unfold countb; cbn; rewrite Z.add_0_r; auto.
  - rewrite countb_cons. destruct (kept x) eqn:E; cbn [app]; rewrite IH; do 3 f_equal; lia.
Qed.

(* ------------------------------------------------------------------ *)
(** * C26 *)
Lemma arange_length n : length (arange n) = n.
Proof. unfold arange; rewrite map_length, seq_length; auto. Qed.
Lemma arange_nth n j d : (j < n)%nat -> nth j (arange n) d = Z.of_nat j.
Proof.
  intros H; unfold arange. rewrite (nth_indep _ _ (Z.of_nat 0)) by (rewrite map_length, seq_length; auto).
  rewrite map_nth, seq_nth by auto; auto.
Qed.

(** position meant by a Python index *)
Definition wrapped (n : nat) (e : Z) : nat := Z.to_nat (if 0 <=? e then e else Z.of_nat n + e).
Definition in_range (n : nat) (e : Z) : Prop := - Z.of_nat n <= e < Z.of_nat n.

Lemma py_set_ok l e v : in_range (length l) e -> py_set l e v = Ok (upd (wrapped (length l) e) v l).
Proof.
  unfold in_range, py_set, wrapped, zlen; intros H. destruct (Z.leb_spec 0 e).
  - destruct (Z.ltb_spec e (Z.of_nat (length l))); auto; lia.
  - destruct (Z.leb_spec (- Z.of_nat (length l)) e); auto; lia.
Qed.
Lemma py_set_err l e v : ~ in_range (length l) e -> py_set l e v = Err IndexError.
Proof.
  unfold in_range, py_set, zlen; intros H. destruct (Z.leb_spec 0 e).
  - destruct (Z.ltb_spec e (Z.of_nat (length l))); auto; lia.
  - destruct (Z.leb_spec (- Z.of_nat (length l)) e); auto; lia.
Qed.

Lemma drop_all_ok els : forall line, (forall e, In e els -> in_range (length line) e) ->
  exists r, drop_all els line = Ok r /\ length r = length line /\
    forall j, (j < length line)%nat ->
      nth j r 0 = if existsb (fun e => Nat.eqb (wrapped (length line) e) j) els then -1 else nth j line 0.
Proof.
  induction els as [|e t IH]; intros line H; cbn [drop_all existsb]; [exists line; auto|].
  rewrite py_set_ok by (apply H; left; auto); cbn [bind].
  destruct (IH (upd (wrapped (length line) e) (-1) line)) as [r [Er [Lr Hr]]].
  { intros e' He'; rewrite upd_length; apply H; right; auto. }
  rewrite upd_length in *. exists r; split; auto; split; auto. intros j Hj; rewrite Hr by auto.
  rewrite nth_upd. destruct (existsb _ t); [rewrite orb_true_r; auto|]. rewrite orb_false_r.
  destruct (Nat.eqb_spec (wrapped (length line) e) j) as [->|]; cbn [andb]; auto.
  destruct (Nat.ltb_spec j (length line)); auto; lia.
Qed.
Lemma drop_all_err els : forall line e, In e els -> ~ in_range (length line) e ->
  drop_all els line = Err IndexError.
Proof.
  induction els as [|a t IH]; intros line e He Hr; [destruct He|]; cbn [drop_all].
  destruct (Z_le_dec (- Z.of_nat (length line)) a) as [H1|H1]; [destruct (Z_lt_dec a (Z.of_nat (length line))) as [H2|H2]|].
  - rewrite py_set_ok by (split; lia); cbn [bind]. destruct He as [->|He]; [unfold in_range in Hr; lia|].
    apply (IH _ e); auto; rewrite upd_length; auto.
  - rewrite py_set_err by (unfold in_range; lia); auto.
  - rewrite py_set_err by (unfold in_range; lia); auto.
Qed.

Lemma format_ply_drops_spec n ls : (forall l e, In l ls -> In e l -> 0 <= e < Z.of_nat n) ->
  exists r, format_ply_drops ls n = Ok r /\ length r = length ls /\ rect n r /\
    forall i j, (i < length ls)%nat -> (j < n)%nat ->
      nth j (nth i r []) (-1) = if memb (Z.of_nat j) (nth i ls []) then -1 else Z.of_nat j.
Proof.
  intros H. unfold format_ply_drops.
  destruct (mapR_forall2 (fun els => drop_all els (arange n))
     (fun els r => length r = n /\ forall j, (j < n)%nat -> nth j r 0 = if memb (Z.of_nat j) els then -1 else Z.of_nat j) ls)
    as [r [Er F]].
  - intros els He. destruct (drop_all_ok els (arange n)) as [x [Ex [Lx Hx]]].
    { intros e Hin; rewrite arange_length; specialize (H els e He Hin); unfold in_range; lia. }
    rewrite arange_length in *. exists x; split; auto; split; auto. intros j Hj; rewrite Hx by auto.
    rewrite arange_nth by auto.
    replace (existsb (fun e => Nat.eqb (wrapped n e) j) els) with (memb (Z.of_nat j) els); auto.
    unfold memb. assert (G : forall e, In e els -> 0 <= e < Z.of_nat n) by (intros; apply (H els); auto).
    clear - G Hj. induction els as [|e t IH]; cbn [existsb]; auto.
    rewrite IH by (intros; apply G; right; auto). f_equal. specialize (G e (or_introl eq_refl)).
    unfold wrapped. destruct (Z.leb_spec 0 e); [|lia].
    destruct (Z.eqb_spec (Z.of_nat j) e), (Nat.eqb_spec (Z.to_nat e) j); auto; lia.
  - exists r; split; auto. assert (L : length r = length ls) by (symmetry; eapply Forall2_len; eauto).
    split; auto. split.
    + intros x Hx. apply In_nth with (d := []) in Hx. destruct Hx as [i [Hi <-]].
      apply (Forall2_nth _ _ _ [] [] F i); lia.
    + intros i j Hi Hj. destruct (Forall2_nth _ _ _ [] [] F i Hi) as [L1 Hx].
      rewrite <- Hx by auto. apply nth_indep; lia.
Qed.

Lemma format_ply_drops_err n ls l e : In l ls -> In e l -> ~ (- Z.of_nat n <= e < Z.of_nat n) ->
  format_ply_drops ls n = Err IndexError.
Proof.
  intros Hl He Hr; unfold format_ply_drops; apply mapR_err.
  - intros x Hx. destruct (Forall_Exists_dec (in_range n) (fun z => ltac:(
        unfold in_range; destruct (Z_le_dec (- Z.of_nat n) z); [destruct (Z_lt_dec z (Z.of_nat n))|]; [left|right|right]; lia)) x) as [F|F].
    + left. destruct (drop_all_ok x (arange n)) as [r [Er _]]; [|eauto].
      intros e' He'; rewrite arange_length; rewrite Forall_forall in F; auto.
    + right. apply Exists_exists in F; destruct F as [e' [H1 H2]].
      apply (drop_all_err x _ e'); auto; rewrite arange_length; auto.
  - exists l; split; auto. apply (drop_all_err l _ e); auto; rewrite arange_length; auto.
Qed.

(* ------------------------------------------------------------------ *)
(** * ply_drops_rules *)
Lemma filterR_ok {A} (f : A -> result bool) (p : A -> bool) l :
  (forall x, In x l -> f x = Ok (p x)) -> filterR f l = Ok (filter p l).
Proof.
  induction l as [|a t IH]; intros H; cbn [filterR filter]; auto.
  rewrite H by (left; auto); cbn [bind]. rewrite IH by (intros; apply H; right; auto); cbn [bind].
  destruct (p a); auto.
Qed.

(** the lines seen at a boundary, without the plies absent on both sides *)
Definition seen (mine other : list Z) : list Z :=
  map fst (filter (fun p => (0 <=? fst p) || negb (fst p =? snd p))%bool (combine mine other)).
Definition seen2 (mine other : list Z) : list Z :=
  map snd (filter (fun p => (0 <=? fst p) || negb (fst p =? snd p))%bool (combine mine other)).

Definition whole (before layout after : list (list Z)) (i : nat) : list Z :=
  nth i before [] ++ nth i layout [] ++ nth i after [].

Lemma Qsum_zero a b : (0 <= a)%Q -> (0 <= b)%Q -> (a + b <= 0)%Q <-> (a == 0)%Q /\ (b == 0)%Q.
Proof. intros; split; [intros; split | intros [H1 H2]]; lra. Qed.

Lemma layout_ok_spec md before layout after bs :
  (forall i1 i2, In (i1, i2) bs ->
     (i1 < length before)%nat /\ (i2 < length before)%nat /\ (i1 < length layout)%nat /\ (i2 < length layout)%nat /\
     (i1 < length after)%nat /\ (i2 < length after)%nat /\
     length (whole before layout after i1) = length (whole before layout after i2) /\
     seen (whole before layout after i1) (whole before layout after i2) <> []) ->
  exists b, layout_ok md before layout after bs = Ok b /\
    (b = true <-> forall i1 i2, In (i1, i2) bs ->
       spaced md (seen (whole before layout after i1) (whole before layout after i2)) /\
       spaced md (seen2 (whole before layout after i1) (whole before layout after i2))).
Proof.
  induction bs as [|[i1 i2] t IH]; intros H; cbn [layout_ok].
  - exists true; split; auto; split; auto. intros _ ? ? [].
  - destruct (H i1 i2 (or_introl eq_refl)) as [A1 [A2 [A3 [A4 [A5 [A6 [E Ne]]]]]]].
    rewrite !(row_ok _ _ []) by auto; cbn [bind].
    unfold both_lines. unfold whole in E. rewrite E, Nat.eqb_refl; cbn [negb].
    fold (whole before layout after i1) (whole before layout after i2) in *.
    cbn [bind fst snd].
    change (map fst _) with (seen (whole before layout after i1) (whole before layout after i2)).
    change (map snd _) with (seen2 (whole before layout after i1) (whole before layout after i2)).
    assert (Ne2 : seen2 (whole before layout after i1) (whole before layout after i2) <> []).
    { unfold seen, seen2 in *. destruct (filter _ _); cbn in *; congruence. }
    destruct (spacing_1ss_spec _ md Ne) as [p1 [-> [P1 [_ S1]]]].
    destruct (spacing_1ss_spec _ md Ne2) as [p2 [-> [P2 [_ S2]]]]. cbn [bind].
    destruct (IH (fun a b Hin => H a b (or_intror Hin))) as [b [Eb Hb]].
    destruct (Qle_bool (p1 + p2) 0) eqn:EQ.
    + apply Qle_bool_iff in EQ. apply Qsum_zero in EQ; auto. destruct EQ as [Z1 Z2].
      exists b; split; auto. rewrite Hb; split.
      * intros G a b' [Heq|Hin]; [injection Heq as <- <-; split; [apply S1|apply S2]; auto | apply G; auto].
      * intros G a b' Hin; apply G; right; auto.
    + exists false; split; auto; split; [discriminate|]. intros G.
      destruct (G i1 i2 (or_introl eq_refl)) as [G1 G2]. apply S1 in G1; apply S2 in G2.
      assert ((p1 + p2 <= 0)%Q) as HH by (rewrite G1, G2; lra).
      apply Qle_bool_iff in HH; congruence.
Qed.

(* ------------------------------------------------------------------ *)
(** * C29 *)
Lemma panel_line_cons t ts i : panel_line (t :: ts) i = nth i t [] ++ panel_line ts i.
Proof. reflexivity. Qed.
Lemma panel_line_app ts us i : panel_line (ts ++ us) i = panel_line ts i ++ panel_line us i.
Proof. unfold panel_line; rewrite map_app, concat_app; auto. Qed.

Lemma tables_ok_cons n t ts : tables_ok n (t :: ts) <-> ((n <= length t)%nat /\ exists c, rect c t) /\ tables_ok n ts.
Proof.
  unfold tables_ok; split.
  - intros H; split; [apply H; left; auto | intros; apply H; right; auto].
  - intros [H1 H2] x [<-|Hx]; auto.
Qed.

Lemma panel_line_length n ts i j : tables_ok n ts -> (i < n)%nat -> (j < n)%nat ->
  length (panel_line ts i) = length (panel_line ts j).
Proof.
  intros H Hi Hj; induction ts as [|t ts IH]; auto.
  apply tables_ok_cons in H; destruct H as [[L [c R]] H].
  rewrite !panel_line_cons, !app_length, IH by auto.
  rewrite (R (nth i t [])) by (apply nth_In; lia). rewrite (R (nth j t [])) by (apply nth_In; lia). auto.
Qed.

Lemma countb_panel_line ts i : countb kept (panel_line ts i) = sumN (map (fun t => countb kept (nth i t [])) ts).
Proof. induction ts as [|t ts IH]; auto. rewrite panel_line_cons, countb_app, IH; auto. Qed.

Lemma sym_marks_ok cum i n : tables_ok n (tables cum) -> (i < n)%nat ->
  sym_marks cum i = Ok (map mark (panel_line (tables cum) i)).
Proof.
  intros H Hi; induction cum as [|[t|] cum IH]; cbn [sym_marks]; auto.
  change (tables (Some t :: cum)) with (t :: tables cum) in *.
  apply tables_ok_cons in H; destruct H as [[L _] H].
  rewrite (row_ok _ _ []) by lia; cbn [bind]. rewrite IH by auto; cbn [bind].
  rewrite panel_line_cons, map_app; auto.
Qed.

Lemma mapR_map {A B} (f : A -> result B) (g : A -> B) l :
  (forall x, In x l -> f x = Ok (g x)) -> mapR f l = Ok (map g l).
Proof.
  induction l as [|a t IH]; intros H; cbn [mapR map]; auto.
  rewrite H by (left; auto); cbn [bind]. rewrite IH by (intros; apply H; right; auto); auto.
Qed.

Lemma columns_ok (f : nat -> list Z) n w : (0 < n)%nat -> (forall i, (i < n)%nat -> length (f i) = w) ->
  columns (map f (seq 0 n)) = Ok w.
Proof.
  intros Hn H. destruct n as [|n]; [lia|]. cbn [seq map columns].
  replace (forallb _ _) with true; [rewrite H by lia; auto|].
  symmetry; apply forallb_forall. intros s Hs. apply in_map_iff in Hs; destruct Hs as [i [<- Hi]].
  apply in_seq in Hi. rewrite !H by lia. apply Nat.eqb_refl.
Qed.

Lemma mirrored_even h s : length s = length h -> mirrored (h ++ s) = h ++ rev h.
Proof.
  intros L; unfold mirrored; rewrite app_length, L.
  replace ((length h + length h + 1) / 2)%nat with (length h)
    by (replace (length h + length h + 1)%nat with (1 + length h * 2)%nat by lia; rewrite Nat.div_add by lia; reflexivity).
  replace ((length h + length h) / 2)%nat with (length h)
    by (replace (length h + length h)%nat with (length h * 2)%nat by lia; rewrite Nat.div_mul by lia; reflexivity).
  rewrite firstn_app, firstn_all, Nat.sub_diag; cbn [firstn]; rewrite app_nil_r; auto.
Qed.

Lemma firstn_removelast {A} (l : list A) : firstn (length l - 1) l = removelast l.
Proof.
  destruct l as [|a t] using rev_ind; auto. rewrite removelast_last, app_length; cbn [length].
  replace (length t + 1 - 1)%nat with (length t) by lia.
  rewrite firstn_app, firstn_all, Nat.sub_diag; cbn [firstn]; apply app_nil_r.
Qed.

Lemma mirrored_odd h s : (S (length s) = length h)%nat -> mirrored (h ++ s) = h ++ rev (removelast h).
Proof.
  intros L; unfold mirrored; rewrite app_length.
  replace (length h + length s + 1)%nat with (length h * 2)%nat by lia. rewrite Nat.div_mul by lia.
  replace (length h + length s)%nat with (1 + length s * 2)%nat by lia. rewrite Nat.div_add by lia.
  change (1 / 2 + length s)%nat with (length s).
  rewrite !firstn_app, firstn_all, Nat.sub_diag; cbn [firstn]; rewrite app_nil_r.
  replace (length s - length h)%nat with 0%nat by lia; cbn [firstn]; rewrite app_nil_r.
  replace (length s) with (length h - 1)%nat by lia. rewrite firstn_removelast; auto.
Qed.

Lemma del_middle (r : list Z) : r <> [] -> del (length (r ++ rev r) / 2) (r ++ rev r) = r ++ tl (rev r).
Proof.
  intros Hr. rewrite app_length, rev_length.
  replace (length r + length r)%nat with (length r * 2)%nat by lia. rewrite Nat.div_mul by lia.
  rewrite del_spec, firstn_app, firstn_all, Nat.sub_diag; cbn [firstn]; rewrite app_nil_r.
  f_equal. rewrite skipn_app. rewrite skipn_all2 by lia.
  replace (S (length r) - length r)%nat with 1%nat by lia. destruct (rev r); auto.
Qed.

(** closed form of the assembled layout, symmetric case *)
Definition sym_row (middle : bool) (line : list Z) : list Z :=
  let h := renumber 1 line in
  h ++ rev (if middle then removelast h else h).

Lemma global_sym d cum after : (0 < d_panels d)%nat -> tables_ok (d_panels d) (tables cum) ->
  let w := length (panel_line (tables cum) 0) in
  (d_middle d = true -> (0 < w)%nat) ->
  let width := (2 * w - if d_middle d then 1 else 0)%nat in
  global_pdl_from_local_pdl d true cum after =
    if (Nat.eqb width (d_max d) || Nat.eqb width (d_max d + 1))%bool
    then Ok (map (fun i => sym_row (d_middle d) (panel_line (tables cum) i)) (seq 0 (d_panels d)))
    else Err (Raised SizeMismatch).
Proof.
  intros Hn Hok w Hw width. unfold global_pdl_from_local_pdl.
  assert (Lw : forall i, (i < d_panels d)%nat -> length (panel_line (tables cum) i) = w).
  { intros i Hi; apply (panel_line_length (d_panels d)); auto. }
  set (full := fun i => let r := map mark (panel_line (tables cum) i) in r ++ rev r).
  rewrite (mapR_map _ full).
  2:{ intros i Hi; apply in_seq in Hi. rewrite (sym_marks_ok cum i (d_panels d)) by (auto; lia). auto. }
  cbn [bind].
  assert (Lf : forall i, (i < d_panels d)%nat -> length (full i) = (w * 2)%nat).
  { intros i Hi; unfold full; cbn zeta; rewrite app_length, rev_length, map_length, Lw by auto; lia. }
  rewrite (columns_ok full _ (w * 2)) by auto; cbn [bind].
  rewrite Nat.div_mul by lia.
  destruct (d_middle d) eqn:Em.
  - specialize (Hw eq_refl). destruct (Nat.ltb_spec w (w * 2)); [|lia]. cbn [bind].
    rewrite map_map. rewrite (columns_ok _ _ width).
    2: auto.
    2:{ intros i Hi. rewrite del_length by (rewrite Lf by auto; lia). rewrite Lf by auto; unfold width; lia. }
    cbn [bind]. replace (negb (Nat.eqb width (d_max d)) && negb (Nat.eqb width (d_max d + 1)))%bool
      with (negb (Nat.eqb width (d_max d) || Nat.eqb width (d_max d + 1))) by apply negb_orb.
    destruct (_ || _)%bool; cbn [negb guard bind]; auto. f_equal. rewrite !map_map.
    apply map_ext_in; intros i Hi; apply in_seq in Hi.
    assert (Li := Lw i ltac:(lia)). unfold full; cbn zeta.
    set (r := map mark (panel_line (tables cum) i)).
    assert (Lr : length r = w) by (unfold r; rewrite map_length; auto).
    replace w with (length (r ++ rev r) / 2)%nat
      by (rewrite app_length, rev_length, Lr; replace (w + w)%nat with (w * 2)%nat by lia; apply Nat.div_mul; lia).
    rewrite del_middle by (intros E; rewrite E in Lr; cbn in Lr; lia).
    rewrite renumber_app, mirrored_odd.
    + unfold sym_row, r; rewrite renumber_mark; auto.
    + rewrite !renumber_length. destruct (rev r) eqn:Er; [apply (f_equal (@length Z)) in Er; rewrite rev_length in Er; cbn in Er; lia|].
      apply (f_equal (@length Z)) in Er; rewrite rev_length in Er; cbn [length tl] in *; lia.
  - cbn [bind]. rewrite (columns_ok full _ width).
    2: auto. 2:{ intros i Hi; rewrite Lf by auto; unfold width; lia. }
    cbn [bind]. replace (negb (Nat.eqb width (d_max d)) && negb (Nat.eqb width (d_max d + 1)))%bool
      with (negb (Nat.eqb width (d_max d) || Nat.eqb width (d_max d + 1))) by apply negb_orb.
    destruct (_ || _)%bool; cbn [negb guard bind]; auto. f_equal. rewrite !map_map.
    apply map_ext_in; intros i Hi. unfold full; cbn zeta.
    rewrite renumber_app, mirrored_even by (rewrite !renumber_length, rev_length; auto).
    unfold sym_row; rewrite renumber_mark; auto.
Qed.

Lemma sym_row_length m line : (m = true -> line <> []) ->
  length (sym_row m line) = (2 * length line - if m then 1 else 0)%nat.
Proof.
  intros H; unfold sym_row; rewrite app_length, rev_length. destruct m.
  - rewrite removelast_length, renumber_length. destruct line; [destruct (H eq_refl); auto|cbn [length]; lia].
  - rewrite renumber_length; lia.
Qed.

Lemma sym_row_palindrome m line : rev (sym_row m line) = sym_row m line.
Proof.
  unfold sym_row; destruct m.
  - destruct (renumber 1 line) as [|x t] using rev_ind; auto.
    rewrite removelast_last, !rev_app_distr, rev_involutive; cbn [rev app].
    rewrite <- app_assoc; auto.
  - rewrite rev_app_distr, rev_involutive; auto.
Qed.

Lemma countb_rev {A} (p : A -> bool) l : countb p (rev l) = countb p l.
Proof. induction l as [|a t IH]; auto. cbn [rev]. rewrite countb_app, !countb_cons, IH. unfold countb at 2; cbn; lia. Qed.

Lemma sym_row_countb m line :
  countb kept (sym_row m line) =
  (2 * countb kept line - if (m && kept (last line (-1)%Z))%bool then 1 else 0)%nat.
Proof.
  unfold sym_row. rewrite countb_app, countb_rev. destruct m; cbn [andb].
  - destruct line as [|x t] using rev_ind; auto. clear IHt.
    rewrite last_last, renumber_app. cbn [renumber].
    rewrite <- (renumber_countb 1 t) by lia.
    assert (E : forall k, 0 <= k -> (if kept x then [k] else [x]) = [if kept x then k else x]) by (intros; destruct (kept x); auto).
    rewrite (E (1 + _)) by lia. rewrite removelast_last, !countb_app, !countb_cons.
    rewrite (renumber_countb 1 t) by lia.
    replace (countb kept []) with 0%nat by reflexivity.
    destruct (kept x) eqn:Ek; [|rewrite Ek; lia].
    replace (kept (1 + Z.of_nat (countb kept t))) with true by (symmetry; apply kept_true; lia). lia.
  - rewrite renumber_countb by lia; lia.
Qed.

(** asymmetric *)
Definition front_tables (cum : local_pdls) := at_parity true 0 cum.
Definition back_tables (cum : local_pdls) (after : option local_pdls) :=
  match after with
  | None => []
  | Some aft => rev (at_parity false 0 (firstn (length cum) aft))
  end.

Lemma at_parity_cons b k o l : at_parity b k (o :: l) =
  (if Bool.eqb (Nat.even k) b then tables [o] else []) ++ at_parity b (S k) l.
Proof.
  unfold at_parity; cbn [length seq combine filter fst].
  destruct (Bool.eqb (Nat.even k) b); auto. cbn [map snd]. unfold tables; cbn [flat_map]; rewrite app_nil_r; auto.
Qed.

Lemma at_parity_nil b k : at_parity b k [] = [].
Proof. reflexivity. Qed.

Lemma tables_ok_app n a b : tables_ok n (a ++ b) <-> tables_ok n a /\ tables_ok n b.
Proof.
  unfold tables_ok; split; [intros H; split; intros; apply H, in_or_app; auto|].
  intros [H1 H2] t Ht; apply in_app_or in Ht; destruct Ht; auto.
Qed.

Lemma tables_one t : tables [Some t] = [t].
Proof. reflexivity. Qed.

Lemma asym_marks_none n i : (i < n)%nat -> forall cum after k front back,
  after = None \/ after = Some [] ->
  tables_ok n (at_parity true k cum) ->
  asym_marks k cum after i front back =
  Ok (front ++ map mark (panel_line (at_parity true k cum) i) ++ back).
Proof.
  intros Hi; induction cum as [|o cum IH]; intros after k front back Ha Hok; cbn [asym_marks]; auto.
  rewrite at_parity_cons in *. apply tables_ok_app in Hok; destruct Hok as [H1 H2].
  destruct (Nat.even k) eqn:Ek; cbn [Bool.eqb] in *.
  - destruct o as [t|]; cbn [Bool.eqb] in *.
    + rewrite tables_one in *. destruct (H1 t (or_introl eq_refl)) as [L _].
      rewrite (row_ok _ _ []) by lia; cbn [bind]. rewrite IH by auto.
      cbn [app]; rewrite panel_line_cons, map_app, <- !app_assoc; auto.
    + rewrite IH by auto; auto.
  - destruct Ha as [-> | ->]; rewrite IH by auto; auto.
Qed.

Lemma asym_marks_some n i aft0 : (i < n)%nat -> forall cum aft k front back,
  aft0 <> [] -> (forall j, nth_error aft j = nth_error aft0 (k + j)) ->
  (length cum <= length aft)%nat ->
  tables_ok n (at_parity true k cum) -> tables_ok n (at_parity false k (firstn (length cum) aft)) ->
  asym_marks k cum (Some aft0) i front back =
  Ok (front ++ map mark (panel_line (at_parity true k cum ++ rev (at_parity false k (firstn (length cum) aft))) i) ++ back).
Proof.
  intros Hi; induction cum as [|o cum IH]; intros aft k front back Hne Hn Hl Hok1 Hok2; cbn [asym_marks]; auto.
  destruct aft as [|a aft]; [cbn [length] in Hl; lia|]. cbn [length] in Hl.
  cbn [length firstn] in *.
  rewrite at_parity_cons in *. rewrite at_parity_cons in *.
  apply tables_ok_app in Hok1; destruct Hok1 as [H1 H2].
  apply tables_ok_app in Hok2; destruct Hok2 as [H3 H4].
  assert (Hn' : forall j, nth_error aft j = nth_error aft0 (S k + j)).
  { intros j; specialize (Hn (S j)); cbn [nth_error] in Hn; rewrite Hn; f_equal; lia. }
  destruct (Nat.even k) eqn:Ek; cbn [Bool.eqb] in *; cbn [app].
  - destruct o as [t|].
    + rewrite tables_one in *. destruct (H1 t (or_introl eq_refl)) as [L _].
      rewrite (row_ok _ _ []) by lia; cbn [bind]. rewrite (IH aft) by (auto; lia).
      cbn [app]; rewrite panel_line_cons, map_app, <- !app_assoc; auto.
    + rewrite (IH aft) by (auto; lia); auto.
  - destruct aft0 as [|z aft0]; [congruence|].
    specialize (Hn 0%nat); cbn [nth_error] in Hn. rewrite Nat.add_0_r in Hn.
    unfold row; rewrite <- Hn; cbn [bind].
    destruct a as [t|].
    + rewrite tables_one in *. destruct (H3 t (or_introl eq_refl)) as [L _].
      fold (row t i). rewrite (row_ok _ _ []) by lia; cbn [bind]. rewrite (IH aft) by (auto; lia).
      cbn [app rev]. rewrite !panel_line_app, !map_app, <- !app_assoc.
      replace (panel_line [t] i) with (nth i t []) by (unfold panel_line; cbn [map concat]; rewrite app_nil_r; auto).
      auto.
    + rewrite (IH aft) by (auto; lia); auto.
Qed.

Lemma global_asym d cum after : (0 < d_panels d)%nat ->
  (forall aft, after = Some aft -> aft <> [] -> (length cum <= length aft)%nat) ->
  let ts := front_tables cum ++ back_tables cum after in
  tables_ok (d_panels d) ts ->
  let width := length (panel_line ts 0) in
  global_pdl_from_local_pdl d false cum after =
    if (Nat.eqb width (d_max d) || Nat.eqb width (d_max d + 1))%bool
    then Ok (map (fun i => renumber 1 (panel_line ts i)) (seq 0 (d_panels d)))
    else Err (Raised SizeMismatch).
Proof.
  intros Hn Haft ts Hok width. unfold global_pdl_from_local_pdl.
  assert (Lw : forall i, (i < d_panels d)%nat -> length (map mark (panel_line ts i)) = width).
  { intros i Hi; rewrite map_length; apply (panel_line_length (d_panels d)); auto. }
  rewrite (mapR_map _ (fun i => map mark (panel_line ts i))).
  2:{ intros i Hi; apply in_seq in Hi. unfold ts, front_tables, back_tables in *.
      apply tables_ok_app in Hok; destruct Hok as [H1 H2].
      destruct after as [[|a aft]|].
      - rewrite (asym_marks_none (d_panels d)) by (auto; lia). cbn [app].
        rewrite firstn_nil; cbn [rev]. rewrite at_parity_nil; cbn [rev]. rewrite !app_nil_r; auto.
      - rewrite (asym_marks_some (d_panels d) i (a :: aft)) with (aft := a :: aft); auto; try lia; try congruence.
        + cbn [app]; rewrite app_nil_r; auto.
        + apply Haft; congruence.
        + intros t Ht; apply H2; rewrite <- in_rev; auto.
      - rewrite (asym_marks_none (d_panels d)) by (auto; lia). cbn [app]; rewrite !app_nil_r; auto. }
  cbn [bind]. rewrite (columns_ok _ _ width) by auto; cbn [bind].
  replace (negb (Nat.eqb width (d_max d)) && negb (Nat.eqb width (d_max d + 1)))%bool
    with (negb (Nat.eqb width (d_max d) || Nat.eqb width (d_max d + 1))) by apply negb_orb.
  destruct (_ || _)%bool; cbn [negb guard bind]; auto. f_equal. rewrite map_map.
  apply map_ext; intros i; apply renumber_mark.
Qed.

(* ------------------------------------------------------------------ *)
(** * input_pdl_from_sst *)
Lemma covering_tables c n k : (k <= n)%nat -> tables_ok k (tables [covering_pdl c n]).
Proof.
  intros Hk t Ht. destruct c as [|[|[|c]]]; cbn in Ht; try contradiction; destruct Ht as [<-|[]];
    (split; [rewrite repeat_length; auto|]); [exists 1%nat|exists 2%nat]; intros r Hr; apply repeat_spec in Hr; subst; auto.
Qed.

Lemma covering_line c n i : (i < n)%nat -> map kept (panel_line (tables [covering_pdl c n]) i) = repeat true (cut c).
Proof.
  intros Hi. destruct c as [|[|[|c]]]; unfold panel_line; cbn [covering_pdl tables flat_map app map concat cut]; auto.
  - rewrite (nth_indep _ _ [0]) by (rewrite repeat_length; auto). rewrite nth_repeat; auto.
  - rewrite (nth_indep _ _ [0; 1]) by (rewrite repeat_length; auto). rewrite nth_repeat; auto.
Qed.

Lemma tables_app a b : tables (a ++ b) = tables a ++ tables b.
Proof. unfold tables; rewrite flat_map_app; auto. Qed.

Lemma rect_renumber_slice a b w sst : rect w sst -> rect (Nat.min (b - a) (w - a)) (map (fun r => renumber 0 (slice a b r)) sst).
Proof.
  intros R x Hx. apply in_map_iff in Hx; destruct Hx as [r [<- Hr]].
  rewrite renumber_length; unfold slice; rewrite firstn_length, skipn_length, (R r Hr); auto.
Qed.

Lemma map_slice {A B} (f : A -> B) a b l : map f (slice a b l) = slice a b (map f l).
Proof.
  unfold slice. rewrite <- firstn_map. f_equal. revert a; induction l as [|x t IH]; intros [|a]; cbn; auto.
Qed.

Lemma firstn_all_true (p : Z -> bool) c l : (c <= length l)%nat -> (forall j, (j < c)%nat -> p (nth j l (-1)) = true) ->
  map p (firstn c l) = repeat true c.
Proof.
  revert l; induction c as [|c IH]; intros [|x t] L H; cbn [length firstn map repeat] in *; auto; try lia.
  f_equal; [apply (H 0%nat); lia | apply IH; [lia|]]. intros j Hj; apply (H (S j)); lia.
Qed.

Lemma slice_join {A} c h (l : list A) : (c <= h)%nat -> firstn c l ++ slice c h l = firstn h l.
Proof.
  intros H; unfold slice. rewrite <- (firstn_skipn c (firstn h l)).
  rewrite firstn_firstn, skipn_firstn_comm, Nat.min_l by auto; auto.
Qed.

Lemma sym_row_kept line : map kept (sym_row false line) = map kept line ++ rev (map kept line).
Proof. unfold sym_row. rewrite map_app, map_rev, renumber_kept by lia; auto. Qed.

Lemma half_palindrome (l : list bool) h : length l = (2 * h)%nat -> rev l = l -> firstn h l ++ rev (firstn h l) = l.
Proof.
  intros L P. rewrite <- (firstn_skipn h l) at 3. f_equal.
  rewrite <- P at 1. rewrite firstn_rev, rev_involutive. f_equal; lia.
Qed.

Lemma in_len_columns w sst : sst <> [] -> rect w sst -> columns sst = Ok w.
Proof.
  intros Hne R. destruct sst as [|r t]; [congruence|]. cbn [columns].
  replace (forallb _ t) with true; [rewrite (R r) by (left; auto); auto|].
  symmetry; apply forallb_forall; intros s Hs. rewrite (R r), (R s) by (cbn; auto). apply Nat.eqb_refl.
Qed.

Lemma input_sym d n c sst h :
  (0 < d_panels d <= length sst)%nat -> (d_panels d <= n)%nat -> rect (2 * h) sst -> (cut c <= h)%nat ->
  d_middle d = false -> (2 * h = d_max d \/ 2 * h = d_max d + 1)%nat ->
  (forall r j, In r sst -> (j < cut c)%nat -> nth j r (-1) <> -1) ->
  (forall r, In r sst -> rev (map kept r) = map kept r) ->
  exists pdl, input_pdl_from_sst sst d n true c = Ok pdl /\ length pdl = d_panels d /\
    forall i, (i < d_panels d)%nat -> map kept (nth i pdl []) = map kept (nth i sst []).
Proof.
  intros Hn Hn2 R Hc Hm Hmax Hcov Hsym. unfold input_pdl_from_sst.
  rewrite (in_len_columns (2 * h)) by (auto; intros E; subst; cbn in Hn; lia). cbn [bind].
  replace (2 * h / 2)%nat with h by (rewrite Nat.mul_comm, Nat.div_mul; lia).
  set (inner := map _ sst).
  assert (Hin : rect (Nat.min (h - cut c) (2 * h - cut c)) inner) by (apply rect_renumber_slice; auto).
  assert (Hnth : forall i, (i < d_panels d)%nat -> nth i inner [] = renumber 0 (slice (cut c) h (nth i sst []))).
  { intros i Hi; unfold inner. rewrite (nth_indep _ _ (renumber 0 (slice (cut c) h []))) by (rewrite map_length; lia).
    rewrite (map_nth (fun r => renumber 0 (slice (cut c) h r))); auto. }
  set (ts := tables [covering_pdl c n; Some inner]).
  assert (Et : ts = tables [covering_pdl c n] ++ [inner]).
  { unfold ts. change [covering_pdl c n; Some inner] with ([covering_pdl c n] ++ [Some inner]). rewrite tables_app; auto. }
  assert (Hok : tables_ok (d_panels d) ts).
  { rewrite Et; apply tables_ok_app; split; [apply covering_tables; auto|].
    intros t [<-|[]]; split; [unfold inner; rewrite map_length; lia|eauto]. }
  assert (Hl : forall i, (i < d_panels d)%nat -> map kept (panel_line ts i) = firstn h (map kept (nth i sst []))).
  { intros i Hi. assert (In (nth i sst []) sst) as Hs by (apply nth_In; lia).
    rewrite Et, panel_line_app, map_app, covering_line by lia.
    unfold panel_line; cbn [map concat]; rewrite app_nil_r, Hnth by auto.
    rewrite renumber_kept by lia. rewrite map_slice. rewrite <- (slice_join (cut c) h) by auto. f_equal.
    rewrite firstn_map. symmetry; apply firstn_all_true; [rewrite (R _ Hs); lia|].
    intros j Hj; apply kept_true; apply (Hcov _ _ Hs Hj). }
  assert (Lw : length (panel_line ts 0) = h).
  { rewrite <- (map_length kept), (Hl 0%nat) by lia. rewrite firstn_length, map_length, (R (nth 0 sst [])) by (apply nth_In; lia). lia. }
  rewrite global_sym; [|lia|exact Hok|rewrite Hm; discriminate].
  change (tables [covering_pdl c n; Some inner]) with ts. rewrite Lw, Hm, Nat.sub_0_r.
  replace (Nat.eqb (2 * h) (d_max d) || Nat.eqb (2 * h) (d_max d + 1))%bool with true.
  2:{ symmetry; apply orb_true_iff; destruct Hmax; [left|right]; apply Nat.eqb_eq; auto. }
  eexists; split; [reflexivity|]. split; [rewrite map_length, seq_length; auto|].
  intros i Hi. rewrite (nth_indep _ _ (sym_row false (panel_line ts 0))) by (rewrite map_length, seq_length; auto).
  rewrite (map_nth (fun i => sym_row false (panel_line ts i))), seq_nth by auto. cbn [Nat.add].
  rewrite sym_row_kept, Hl by auto. apply half_palindrome.
  - rewrite map_length, (R (nth i sst [])) by (apply nth_In; lia); auto.
  - apply Hsym, nth_In; lia.
Qed.

Lemma input_sym_middle d n c sst w :
  (0 < d_panels d <= length sst)%nat -> (d_panels d <= n)%nat -> rect w sst -> (cut c <= w / 2)%nat -> (2 <= w)%nat -> Nat.odd w = true ->
  d_middle d = true -> (w = d_max d \/ w = d_max d + 1)%nat ->
  input_pdl_from_sst sst d n true c = Err (Raised SizeMismatch).
Proof.
  intros Hn Hn2 R Hc Hw Hodd Hm Hmax. unfold input_pdl_from_sst.
  rewrite (in_len_columns w) by (auto; intros E; subst; cbn in Hn; lia). cbn [bind].
  assert (H2 : (1 <= w / 2)%nat) by (change 1%nat with (2 / 2)%nat; apply Nat.div_le_mono; lia).
  assert (H3 : (w = 2 * (w / 2) + 1)%nat).
  { rewrite (Nat.div_mod w 2) at 1 by lia. f_equal. apply Nat.odd_spec in Hodd. destruct Hodd as [k ->].
    rewrite Nat.add_comm, Nat.mul_comm, Nat.mod_add by lia. reflexivity. }
  set (inner := map _ sst).
  assert (Hin : rect (Nat.min (w / 2 - cut c) (w - cut c)) inner) by (apply rect_renumber_slice; auto).
  set (ts := tables [covering_pdl c n; Some inner]).
  assert (Et : ts = tables [covering_pdl c n] ++ [inner]).
  { unfold ts. change [covering_pdl c n; Some inner] with ([covering_pdl c n] ++ [Some inner]). rewrite tables_app; auto. }
  assert (Hok : tables_ok (d_panels d) ts).
  { rewrite Et; apply tables_ok_app; split; [apply covering_tables; auto|].
    intros t [<-|[]]; split; [unfold inner; rewrite map_length; lia|eauto]. }
  assert (Lw : length (panel_line ts 0) = (w / 2)%nat).
  { rewrite Et, panel_line_app, app_length. rewrite <- (map_length kept), covering_line, repeat_length by lia.
    unfold panel_line; cbn [map concat]; rewrite app_nil_r.
    rewrite (Hin (nth 0 inner [])) by (apply nth_In; unfold inner; rewrite map_length; lia). lia. }
  rewrite global_sym; [|lia|exact Hok|].
  2:{ change (tables [covering_pdl c n; Some inner]) with ts. rewrite Lw; lia. }
  change (tables [covering_pdl c n; Some inner]) with ts. rewrite Lw, Hm.
  destruct (Nat.eqb_spec (2 * (w / 2) - 1) (d_max d)); [lia|].
  destruct (Nat.eqb_spec (2 * (w / 2) - 1) (d_max d + 1)); [lia|]. auto.
Qed.

Lemma input_asym d n c sst w :
  (0 < d_panels d <= length sst)%nat -> (d_panels d <= n)%nat -> rect w sst -> (2 * cut c <= w)%nat ->
  (w = d_max d \/ w = d_max d + 1)%nat ->
  (forall r j, In r sst -> (j < cut c \/ w - cut c <= j < w)%nat -> nth j r (-1) <> -1) ->
  exists pdl, input_pdl_from_sst sst d n false c = Ok pdl /\ length pdl = d_panels d /\
    forall i, (i < d_panels d)%nat -> map kept (nth i pdl []) = map kept (nth i sst []).
Proof.
  intros Hn Hn2 R Hc Hmax Hcov. unfold input_pdl_from_sst.
  rewrite (in_len_columns w) by (auto; intros E; subst; cbn in Hn; lia). cbn [bind].
  set (inner := map _ sst).
  assert (Hin : rect (Nat.min (w - cut c - cut c) (w - cut c)) inner) by (apply rect_renumber_slice; auto).
  assert (Hnth : forall i, (i < d_panels d)%nat -> nth i inner [] = renumber 0 (slice (cut c) (w - cut c) (nth i sst []))).
  { intros i Hi; unfold inner. rewrite (nth_indep _ _ (renumber 0 (slice (cut c) (w - cut c) []))) by (rewrite map_length; lia).
    rewrite (map_nth (fun r => renumber 0 (slice (cut c) (w - cut c) r))); auto. }
  set (cum := [covering_pdl c n; None; Some inner]). set (after := Some [None; covering_pdl c n; None]).
  set (cov := tables [covering_pdl c n]).
  assert (Ef : front_tables cum ++ back_tables cum after = cov ++ [inner] ++ cov).
  { unfold front_tables, back_tables, cum, after. cbn [length firstn]. rewrite !at_parity_cons, !at_parity_nil.
    cbn [Nat.even Bool.eqb app]. fold cov. rewrite !app_nil_r. cbn [tables flat_map app]. rewrite <- app_assoc.
    do 2 f_equal. destruct c as [|[|[|]]]; reflexivity. }
  assert (Hok : tables_ok (d_panels d) (cov ++ [inner] ++ cov)).
  { apply tables_ok_app; split; [apply covering_tables; auto|].
    apply tables_ok_app; split; [|apply covering_tables; auto].
    intros t [<-|[]]; split; [unfold inner; rewrite map_length; lia|eauto]. }
  assert (Hl : forall i, (i < d_panels d)%nat -> map kept (panel_line (cov ++ [inner] ++ cov) i) = map kept (nth i sst [])).
  { intros i Hi. assert (In (nth i sst []) sst) as Hs by (apply nth_In; lia).
    rewrite !panel_line_app, !map_app. unfold cov; rewrite covering_line by lia.
    unfold panel_line; cbn [map concat]; rewrite app_nil_r, Hnth by auto.
    rewrite renumber_kept by lia. rewrite map_slice. set (r := nth i sst []) in *.
    rewrite <- (firstn_all_true kept (cut c) r) at 1.
    2: rewrite (R _ Hs); lia. 2: intros j Hj; apply kept_true, (Hcov _ _ Hs); lia.
    rewrite <- firstn_map, app_assoc, slice_join by lia.
    replace (repeat true (cut c)) with (skipn (w - cut c) (map kept r)); [apply firstn_skipn|].
    apply (nth_ext _ _ true true).
    - rewrite skipn_length, map_length, repeat_length, (R _ Hs); lia.
    - intros j Hj. rewrite skipn_length, map_length, (R _ Hs) in Hj. rewrite nth_skipn, nth_repeat.
      rewrite (nth_indep _ _ (kept (-1))) by (rewrite map_length, (R _ Hs); lia). rewrite map_nth.
      apply kept_true, (Hcov _ _ Hs); lia. }
  assert (Lw : length (panel_line (cov ++ [inner] ++ cov) 0) = w).
  { rewrite <- (map_length kept), (Hl 0%nat) by lia. rewrite map_length, (R (nth 0 sst [])) by (apply nth_In; lia). lia. }
  rewrite global_asym; [|lia| |rewrite Ef; exact Hok].
  2:{ intros aft E _; unfold after in E; injection E as <-; auto. }
  rewrite Ef, Lw.
  replace (Nat.eqb w (d_max d) || Nat.eqb w (d_max d + 1))%bool with true.
  2:{ symmetry; apply orb_true_iff; destruct Hmax; [left|right]; apply Nat.eqb_eq; auto. }
  eexists; split; [reflexivity|]. split; [rewrite map_length, seq_length; auto|].
  intros i Hi. rewrite (nth_indep _ _ (renumber 1 (panel_line (cov ++ [inner] ++ cov) 0))) by (rewrite map_length, seq_length; auto).
  rewrite (map_nth (fun i => renumber 1 (panel_line (cov ++ [inner] ++ cov) i))), seq_nth by auto. cbn [Nat.add].
  rewrite renumber_kept by lia; auto.
Qed.
