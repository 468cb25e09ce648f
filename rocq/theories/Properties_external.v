(* Properties_external.v - C93: a table of another optimiser is read back panel by panel. *)
From Verif Require Import Base Divers Spacing Strip Guidelines GuidelinesProofs Format ExternalTable.
From Coq Require Import Sorted.

(* ---------- specification, independent of the model ---------- *)

Definition plies_in (l : list Z) : list Z := filter (fun x => negb (x =? -1)) l.
(** the line [l] is the last one of the table with [n] plies *)
Definition last_with (n : Z) (lines : list (list Z)) (l : list Z) : Prop :=
  exists before after, lines = before ++ l :: after /\ zlen (plies_in l) = n /\
    forall l', In l' after -> zlen (plies_in l') <> n.
(** every column has at most one fibre orientation *)
Definition blended_table (t : list (list Z)) : Prop :=
  forall r r' j x y, In r t -> In r' t -> nth_error r j = Some x -> nth_error r' j = Some y ->
    x <> -1 -> y <> -1 -> x = y.

(* ---------- lemmas ---------- *)

Lemma dget_dput {A} k (v : A) d k' :
  dget k' (dput k v d) = if k =? k' then Ok v else dget k' d.
Proof.
  induction d as [|[k0 v0] t IH]; cbn [dput dget]; [reflexivity|].
  destruct (Z.eqb_spec k0 k) as [->|N]; cbn [dget].
  - destruct (Z.eqb_spec k k'); reflexivity.
  - destruct (Z.eqb_spec k0 k') as [->|N'].
    + destruct (Z.eqb_spec k k'); [lia|reflexivity].
    + exact IH.
Qed.

Lemma kept_same : forall l, filter kept l = plies_in l.
Proof. reflexivity. Qed.

Lemma line_plies_spec l : line_plies l = zlen (plies_in l).
Proof. reflexivity. Qed.


Lemma last_with_snoc n lines l0 l :
  last_with n (lines ++ [l0]) l <->
  (zlen (plies_in l0) = n /\ l = l0) \/ (zlen (plies_in l0) <> n /\ last_with n lines l).
Proof.
  split.
  - intros (b & a & E & C & N). destruct (exists_last (l := l :: a)) as (a' & z & Ea); [discriminate|].
    rewrite Ea, app_assoc in E. apply app_inj_tail in E. destruct E as [E ->].
    destruct a as [|x a].
    + destruct a' as [|y a'].
      * cbn in Ea. injection Ea as ->. left. split; [exact C|reflexivity].
      * injection Ea as _ Ea. symmetry in Ea. apply app_eq_nil in Ea. destruct Ea; discriminate.
    + destruct a' as [|y a']; [injection Ea as _ Ea; discriminate|].
      injection Ea as <- Ea. right. split.
      * apply N. rewrite Ea. apply in_or_app. right. now left.
      * exists b, a'. split; [exact E|]. split; [exact C|]. intros l' I. apply N. rewrite Ea.
        apply in_or_app. now left.
  - intros [[C ->]|[C (b & a & -> & D & N)]].
    + exists lines, []. split; [reflexivity|]. split; [exact C|]. intros l' [].
    + exists b, (a ++ [l0]). split; [now rewrite <- app_assoc|]. split; [exact D|].
      intros l' I. apply in_app_or in I. destruct I as [I|[<-|[]]]; [now apply N|exact C].
Qed.

Lemma lines_snoc lines l0 : lines_by_plies (lines ++ [l0]) = dput (line_plies l0) l0 (lines_by_plies lines).
Proof. unfold lines_by_plies. now rewrite fold_left_app. Qed.

Lemma dget_ok n lines : forall l, dget n (lines_by_plies lines) = Ok l <-> last_with n lines l.
Proof.
  induction lines as [|l0 lines IH] using rev_ind; intros l.
  - split; [discriminate|]. intros (b & a & E & _). destruct b; discriminate.
  - rewrite lines_snoc, dget_dput, last_with_snoc, line_plies_spec.
    destruct (Z.eqb_spec (zlen (plies_in l0)) n) as [C|C].
    + split; [intros E; left; injection E as <-; split; [exact C|reflexivity]|].
      intros [[_ ->]|[N _]]; [reflexivity|contradiction].
    + rewrite IH. split; [intros L; right; split; [exact C|exact L]|].
      intros [[N _]|[_ L]]; [contradiction|exact L].
Qed.

Lemma dget_err n lines e : dget n (lines_by_plies lines) = Err e ->
  e = KeyError /\ forall l, In l lines -> zlen (plies_in l) <> n.
Proof.
  induction lines as [|l0 lines IH] using rev_ind.
  - intros E. injection E as <-. split; [reflexivity|intros l []].
  - rewrite lines_snoc, dget_dput, line_plies_spec.
    destruct (Z.eqb_spec (zlen (plies_in l0)) n) as [C|C]; [discriminate|].
    intros E. destruct (IH E) as [-> N]. split; [reflexivity|].
    intros l I. apply in_app_or in I. destruct I as [I|[<-|[]]]; [now apply N|exact C].
Qed.

Definition live (t : list (list Z)) (j : nat) : bool := negb (empty_column j t).

Lemma live_spec t j : live t j = true <-> exists r, In r t /\ nth j r (-1) <> -1.
Proof.
  unfold live, empty_column. rewrite negb_true_iff. split.
  - intros H. induction t as [|r t IH]; [discriminate|]. cbn [forallb] in H.
    destruct (Z.eqb_spec (nth j r (-1)) (-1)) as [E|E].
    + cbn in H. destruct (IH H) as (r' & I & N). exists r'. split; [now right|exact N].
    + exists r. split; [now left|exact E].
  - intros (r & I & N). apply not_true_is_false. intros H. rewrite forallb_forall in H.
    specialize (H r I). apply Z.eqb_eq in H. contradiction.
Qed.

Definition pick (cols : list nat) (r : list Z) : list Z := map (fun j => nth j r (-1)) cols.

Lemma without_step t : forall k, (forall r, In r t -> (k <= length r)%nat) -> forall cols,
  fold_left (fun t i => if empty_column i t then map (del i) t else t) (rev (seq 0 k))
    (map (fun r => firstn k r ++ pick cols r) t) =
  map (fun r => pick (filter (live t) (seq 0 k) ++ cols) r) t.
Proof.
  induction k as [|k IH]; intros Hk cols.
  - reflexivity.
  - rewrite seq_S, rev_app_distr. cbn [rev app fold_left Nat.add].
    assert (Hnth : forall r, In r t -> nth k (firstn (S k) r ++ pick cols r) (-1) = nth k r (-1)).
    { intros r I. specialize (Hk r I). rewrite app_nth1 by (rewrite firstn_length; lia).
      rewrite <- (firstn_skipn (S k) r) at 2. rewrite app_nth1 by (rewrite firstn_length; lia). reflexivity. }
    assert (Hs : forall r, In r t -> firstn (S k) r = firstn k r ++ [nth k r (-1)]).
    { intros r I. specialize (Hk r I). rewrite <- (firstn_skipn k r) at 1.
      rewrite firstn_app, firstn_length, firstn_firstn. replace (Nat.min (S k) k) with k by lia.
      replace (S k - Nat.min k (length r))%nat with 1%nat by lia. f_equal.
      destruct (skipn k r) as [|x s] eqn:E.
      - apply (f_equal (@length Z)) in E. rewrite skipn_length in E. cbn in E. lia.
      - cbn [firstn]. f_equal. rewrite <- (firstn_skipn k r), app_nth2 by (rewrite firstn_length; lia).
        rewrite firstn_length. replace (k - Nat.min k (length r))%nat with 0%nat by lia. now rewrite E. }
    assert (Ec : empty_column k (map (fun r => firstn (S k) r ++ pick cols r) t) = empty_column k t).
    { unfold empty_column. clear - Hnth. induction t as [|r t IH]; [reflexivity|].
      cbn [map forallb]. rewrite Hnth by now left. f_equal. apply IH. intros r' I. apply Hnth. now right. }
    rewrite Ec, filter_app. cbn [filter]. unfold live at 2.
    destruct (empty_column k t) eqn:Ek; cbn [negb].
    + rewrite map_map. rewrite app_nil_r. rewrite <- IH by (intros r I; specialize (Hk r I); lia). f_equal.
      apply map_ext_in. intros r I. rewrite del_spec, (Hs r I), <- app_assoc.
      specialize (Hk r I).
      rewrite firstn_app, firstn_firstn, firstn_length. replace (k - Nat.min k (length r))%nat with 0%nat by lia.
      replace (Nat.min k k) with k by lia. cbn [firstn]. rewrite app_nil_r. f_equal.
      rewrite skipn_app, firstn_length. rewrite skipn_all2 by (rewrite firstn_length; lia).
      replace (S k - Nat.min k (length r))%nat with 1%nat by lia. reflexivity.
    + rewrite <- app_assoc. cbn [app]. rewrite <- IH by (intros r I; specialize (Hk r I); lia). f_equal.
      apply map_ext_in. intros r I. rewrite (Hs r I), <- app_assoc. reflexivity.
Qed.

Lemma without_empty_spec w t : (forall r, In r t -> length r = w) ->
  without_empty w t = map (pick (filter (live t) (seq 0 w))) t.
Proof.
  intros H. unfold without_empty.
  rewrite <- (app_nil_r (filter (live t) (seq 0 w))).
  change (map (pick (filter (live t) (seq 0 w) ++ [])) t) with
    (map (fun r => pick (filter (live t) (seq 0 w) ++ []) r) t).
  rewrite <- (without_step t w) by (intros r I; rewrite (H r I); lia).
  f_equal. rewrite <- (map_id t) at 1. apply map_ext_in. intros r I.
  cbn [pick map]. rewrite app_nil_r. rewrite <- (H r I), firstn_all. reflexivity.
Qed.

Lemma plies_pick t r w : In r t -> length r = w ->
  plies_in (pick (filter (live t) (seq 0 w)) r) = plies_in r.
Proof.
  intros I <-.
  assert (G : forall l a, (forall j, (a + j < a + length l)%nat -> nth (a + j) r (-1) = nth j l (-1)) ->
     plies_in (pick (filter (live t) (seq a (length l))) r) = plies_in l).
  { induction l as [|x l IH]; intros a H; [reflexivity|]. cbn [length seq].
    pose proof (H 0%nat ltac:(cbn [length]; lia)) as H0. rewrite Nat.add_0_r in H0. cbn [nth] in H0.
    assert (T : plies_in (pick (filter (live t) (seq (S a) (length l))) r) = plies_in l).
    { apply IH. intros j Hj. replace (S a + j)%nat with (a + S j)%nat by lia. apply (H (S j)). cbn [length]. lia. }
    cbn [filter]. destruct (live t a) eqn:L.
    - cbn [pick map]. cbn [plies_in filter]. fold (plies_in l). rewrite H0. 
      change (filter (fun x0 => negb (x0 =? -1)) (map (fun j => nth j r (-1)) (filter (live t) (seq (S a) (length l)))))
        with (plies_in (pick (filter (live t) (seq (S a) (length l))) r)).
      change (filter (fun x0 => negb (x0 =? -1)) l) with (plies_in l). rewrite T. reflexivity.
    - rewrite T. cbn [plies_in filter]. destruct (Z.eqb_spec x (-1)) as [E|E]; [reflexivity|].
      exfalso. assert (live t a = true) by (apply live_spec; exists r; split; [exact I|]; rewrite H0; exact E).
      congruence. }
  apply (G r 0%nat). intros j _. reflexivity.
Qed.

Lemma sorted_filter_seq p : forall n a, StronglySorted lt (filter p (seq a n)).
Proof.
  induction n as [|n IH]; intros a; [constructor|]. cbn [seq filter].
  destruct (p a); [|apply IH]. constructor; [apply IH|]. apply Forall_forall. intros x Hx.
  apply filter_In in Hx. destruct Hx as [Hx _]. apply in_seq in Hx. lia.
Qed.

Lemma lines_of_panels_ok counts lines t : lines_of_panels counts lines = Ok t <->
  Forall2 (fun n l => last_with n lines l) counts t.
Proof.
  unfold lines_of_panels. revert t. induction counts as [|n cs IH]; intros t; cbn [mapM].
  - split; [intros E; injection E as <-; constructor|intros H; inversion H; reflexivity].
  - destruct (dget n (lines_by_plies lines)) as [l|e] eqn:E; cbn [bind].
    + destruct (mapM _ cs) as [u|e] eqn:Eu; cbn [bind].
      * split.
        -- intros H. injection H as <-. constructor; [now apply dget_ok|now apply IH].
        -- intros H. inversion H as [|? l' ? u' Hl Hu]; subst. apply dget_ok in Hl. apply IH in Hu. congruence.
      * split; [discriminate|]. intros H. inversion H as [|? l' ? u' Hl Hu]; subst. apply IH in Hu. congruence.
    + split; [discriminate|]. intros H. inversion H as [|? l' ? u' Hl Hu]; subst. apply dget_ok in Hl. congruence.
Qed.

Lemma lines_of_panels_err counts lines e : lines_of_panels counts lines = Err e ->
  e = KeyError /\ exists n, In n counts /\ forall l, In l lines -> zlen (plies_in l) <> n.
Proof.
  unfold lines_of_panels. induction counts as [|n cs IH]; cbn [mapM]; [discriminate|].
  destruct (dget n (lines_by_plies lines)) as [l|e'] eqn:E; cbn [bind].
  - destruct (mapM _ cs) as [u|e''] eqn:Eu; cbn [bind]; [discriminate|].
    intros H. destruct (IH H) as (-> & m & I & N). split; [reflexivity|]. exists m. split; [now right|exact N].
  - intros H. injection H as <-. destruct (dget_err _ _ _ E) as [-> N]. split; [reflexivity|].
    exists n. split; [now left|exact N].
Qed.

(* ---------- C93 ---------- *)

(** The table that is read back: each panel gets the last line with its number of plies; the
    columns that no panel uses go, the others stay in order; and the stacks are the plies of the
    lines, in order, as many as the panel asks for. *)
Theorem C93_lines : forall w counts lines sst ss,
  (forall l, In l lines -> length l = w) ->
  external_table counts lines = Ok (sst, ss) ->
  exists chosen cols,
    Forall2 (fun n l => last_with n lines l) counts chosen /\
    StronglySorted lt cols /\
    (forall j, In j cols <-> (j < w)%nat /\ exists l, In l chosen /\ nth j l (-1) <> -1) /\
    sst = map (fun l => map (fun j => nth j l (-1)) cols) chosen /\
    ss = map plies_in chosen /\
    Forall2 (fun n s => zlen s = n) counts ss.
Proof.
  intros w counts lines sst ss Hw H. unfold external_table in H.
  destruct (lines_of_panels counts lines) as [t0|] eqn:E; [|discriminate]. cbn [bind] in H.
  destruct t0 as [|r t] eqn:Et; [discriminate|]. rewrite <- Et in *.
  apply lines_of_panels_ok in E.
  assert (Hin : forall l, In l t \/ l = r -> In l lines).
  { intros l Hl. assert (I : In l (r :: t)) by (destruct Hl as [Hl| ->]; [now right|now left]).
    rewrite <- Et in I. clear - E I. induction E as [|n l0 ns ls (b & a & -> & _ & _) _ IH]; [destruct I|].
    destruct I as [->|I]; [apply in_or_app; right; now left|now apply IH]. }
  assert (Hlen : forall l, In l t0 -> length l = w).
  { intros l Hl. apply Hw. apply Hin. rewrite Et in Hl. destruct Hl as [->|Hl]; [now right|now left]. }
  assert (Hr : length r = w) by (apply Hlen; rewrite Et; now left).
  rewrite Hr in H. injection H as <- <-.
  rewrite (without_empty_spec w t0 Hlen).
  exists t0, (filter (live t0) (seq 0 w)). split; [exact E|]. split; [apply sorted_filter_seq|]. split.
  { intros j. rewrite filter_In, live_spec, in_seq. split; intros [A B]; (split; [lia|exact B]). }
  split; [reflexivity|].
  assert (Ess : convert_sst_to_ss (map (pick (filter (live t0) (seq 0 w))) t0) = map plies_in t0).
  { unfold convert_sst_to_ss. rewrite map_map. apply map_ext_in. intros l Hl.
    rewrite kept_same. apply plies_pick; [exact Hl|now apply Hlen]. }
  rewrite Ess. split; [reflexivity|].
  clear - E. induction E as [|n l ns ls (b & a & _ & C & _) _ IH]; cbn [map]; constructor; assumption.
Qed.

(** It works exactly when every panel's number of plies is that of some line; otherwise a
    KeyError, and an IndexError when there is no panel. *)
Theorem C93_when : forall counts lines,
  counts <> [] ->
  ((exists sst ss, external_table counts lines = Ok (sst, ss)) <->
   forall n, In n counts -> exists l, In l lines /\ zlen (plies_in l) = n) /\
  (forall e, external_table counts lines = Err e -> e = KeyError).
Proof.
  intros counts lines Hc. unfold external_table.
  destruct (lines_of_panels counts lines) as [t|e] eqn:E; cbn [bind].
  - apply lines_of_panels_ok in E. destruct t as [|r t].
    + inversion E; subst. contradiction.
    + split; [|discriminate]. split.
      * intros _ n I. remember (r :: t) as u. clear - E I.
        induction E as [|m l ns ls (b & a & -> & C & _) _ IH]; [destruct I|].
        destruct I as [->|I]; [exists l; split; [apply in_or_app; right; now left|exact C]|now apply IH].
      * intros _. eauto.
  - destruct (lines_of_panels_err _ _ _ E) as (-> & n & I & N). split.
    + split; [intros (? & ? & H); discriminate|]. intros H. destruct (H n I) as (l & Il & C).
      exfalso. exact (N l Il C).
    + intros e H. now injection H as <-.
Qed.

(** A table with one fibre orientation per column stays so, and panels with the same number of
    plies get the same stack. *)
Theorem C93_blended : forall w counts lines sst ss,
  (forall l, In l lines -> length l = w) ->
  external_table counts lines = Ok (sst, ss) ->
  (blended_table lines -> blended_table sst) /\
  (forall i j n s s', nth_error counts i = Some n -> nth_error counts j = Some n ->
     nth_error ss i = Some s -> nth_error ss j = Some s' -> s = s') /\
  (forall j, (exists r, In r sst /\ (j < length r)%nat) -> exists r x, In r sst /\ nth_error r j = Some x /\ x <> -1).
Proof.
  intros w counts lines sst ss Hw H.
  destruct (C93_lines w counts lines sst ss Hw H) as (chosen & cols & F & So & Hc & -> & -> & _).
  assert (Hin : forall l, In l chosen -> In l lines).
  { intros l I. clear - F I. induction F as [|n l0 ns ls (b & a & -> & _ & _) _ IH]; [destruct I|].
    destruct I as [->|I]; [apply in_or_app; right; now left|now apply IH]. }
  assert (Hnth : forall l j x, In l chosen -> nth_error (map (fun j => nth j l (-1)) cols) j = Some x ->
     exists k, nth_error cols j = Some k /\ (k < w)%nat /\ nth_error l k = Some x).
  { intros l j x I E. rewrite nth_error_map in E. destruct (nth_error cols j) as [k|] eqn:Ek; [|discriminate].
    injection E as <-. exists k. split; [reflexivity|]. apply nth_error_In in Ek. apply Hc in Ek.
    destruct Ek as [Lk _]. split; [exact Lk|]. apply nth_error_nth'. rewrite (Hw l (Hin l I)). exact Lk. }
  split; [|split].
  - intros B r r' j x y Ir Ir' Ex Ey Nx Ny. apply in_map_iff in Ir. apply in_map_iff in Ir'.
    destruct Ir as (l & <- & Il). destruct Ir' as (l' & <- & Il').
    destruct (Hnth l j x Il Ex) as (k & Ek & _ & Ex'). destruct (Hnth l' j y Il' Ey) as (k' & Ek' & _ & Ey').
    rewrite Ek in Ek'. injection Ek' as <-. exact (B l l' k x y (Hin l Il) (Hin l' Il') Ex' Ey' Nx Ny).
  - assert (G : forall i n s, nth_error counts i = Some n -> nth_error (map plies_in chosen) i = Some s ->
       exists l, dget n (lines_by_plies lines) = Ok l /\ s = plies_in l).
    { clear - F. induction F as [|m l ns ls L _ IH]; intros i n s Ei Es.
      - destruct i; discriminate.
      - destruct i as [|i]; [|exact (IH i n s Ei Es)].
        injection Ei as <-. injection Es as <-. exists l. split; [now apply dget_ok|reflexivity]. }
    intros i j n s s' Ei Ej Es Es'. destruct (G i n s Ei Es) as (l & El & ->).
    destruct (G j n s' Ej Es') as (l' & El' & ->). congruence.
  - intros j (r & Ir & Lr). apply in_map_iff in Ir. destruct Ir as (l & <- & Il). rewrite map_length in Lr.
    destruct (nth_error cols j) as [k|] eqn:Ek; [|apply nth_error_None in Ek; lia].
    destruct (proj1 (Hc k) (nth_error_In _ _ Ek)) as [_ (l' & Il' & N)].
    exists (map (fun j => nth j l' (-1)) cols), (nth k l' (-1)). split; [now apply in_map_iff; exists l'|].
    split; [|exact N]. rewrite nth_error_map, Ek. reflexivity.
Qed.

(* ---------- concrete cases ---------- *)
Definition ex_lines : list (list Z) :=
  [ [45; -1; 0; -1; 90; -1]; [45; -1; -1; -1; 90; -1]; [45; 30; 0; -1; 90; -1]; [45; -1; 0; -1; 60; -1] ].
Example C93_case : external_table [3; 2; 3] ex_lines =
  Ok ([[45; 0; 60]; [45; -1; 90]; [45; 0; 60]], [[45; 0; 60]; [45; 90]; [45; 0; 60]]).
Proof. reflexivity. Qed.
Example C93_case_width : forall l, In l ex_lines -> length l = 6%nat.
Proof. intros l H. repeat (destruct H as [<-|H]; [reflexivity|]). destruct H. Qed.
Example C93_case_missing : external_table [3; 5] ex_lines = Err KeyError.
Proof. reflexivity. Qed.

Print Assumptions C93_lines.
Print Assumptions C93_when.
Print Assumptions C93_blended.
