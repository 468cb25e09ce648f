(* Uniq.v - numpy.unique on integers: sorted distinct values. *)
From Verif Require Import Base.

(** insertion of a value into a strictly increasing list, no repetition *)
Fixpoint uins (a : Z) (l : list Z) : list Z :=
  match l with
  | [] => [a]
  | b :: t => if a <? b then a :: b :: t
              else if a =? b then b :: t
              else b :: uins a t
  end.

(** model of [np.unique(l)] *)
Fixpoint uniq (l : list Z) : list Z :=
  match l with [] => [] | a :: t => uins a (uniq t) end.

(** index of the first occurrence (np.where(l == a)[0][0], list.index) *)
Fixpoint index_of (a : Z) (l : list Z) : option nat :=
  match l with
  | [] => None
  | b :: t => if b =? a then Some 0%nat
              else match index_of a t with Some i => Some (S i) | None => None end
  end.

Lemma uins_in a l x : In x (uins a l) <-> x = a \/ In x l.
Proof.
  induction l as [|b t IH]; cbn [uins].
  - cbn; intuition.
  - destruct (Z.ltb_spec a b); [cbn; intuition|].
    destruct (Z.eqb_spec a b).
    + subst; cbn; intuition.
    + cbn [In]; rewrite IH; intuition.
Qed.

Lemma uniq_in l x : In x (uniq l) <-> In x l.
Proof.
  induction l as [|a t IH]; cbn [uniq]; [reflexivity|].
  rewrite uins_in, IH; cbn; intuition.
Qed.

Lemma uins_hdrel a b l :
  HdRel Z.lt b l -> b < a -> HdRel Z.lt b (uins a l).
Proof.
  intros H Hb; destruct l as [|c t]; cbn [uins].
  - constructor; exact Hb.
  - inversion H; subst; destruct (Z.ltb_spec a c); [constructor; exact Hb|].
    destruct (Z.eqb_spec a c); constructor; assumption.
Qed.

Lemma uins_sorted a l : Sorted Z.lt l -> Sorted Z.lt (uins a l).
Proof.
  induction l as [|b t IH]; intros H; cbn [uins].
  - repeat constructor.
  - inversion H; subst.
    destruct (Z.ltb_spec a b); [constructor; [exact H | constructor; assumption]|].
    destruct (Z.eqb_spec a b); [exact H|].
    constructor; [apply IH; assumption | apply uins_hdrel; [assumption | lia]].
Qed.

Lemma uniq_sorted l : Sorted Z.lt (uniq l).
Proof.
  induction l as [|a t IH]; cbn [uniq]; [constructor | apply uins_sorted, IH].
Qed.

Lemma uniq_ssorted l : StronglySorted Z.lt (uniq l).
Proof. apply Sorted_StronglySorted; [intros x y z; lia | apply uniq_sorted]. Qed.

Lemma ssorted_lt_nodup l : StronglySorted Z.lt l -> NoDup l.
Proof.
  induction 1 as [|a l Hs IH Hf]; constructor; auto.
  intros Hin; rewrite Forall_forall in Hf; specialize (Hf a Hin); lia.
Qed.

Lemma uniq_nodup l : NoDup (uniq l).
Proof. apply ssorted_lt_nodup, uniq_ssorted. Qed.

Lemma ssorted_ext l m :
  StronglySorted Z.lt l -> StronglySorted Z.lt m ->
  (forall x, In x l <-> In x m) -> l = m.
Proof.
  intros Hl; revert m; induction Hl as [|a l Hs IH Hf]; intros m Hm He.
  - destruct m as [|b m]; auto. exfalso; apply (proj2 (He b)); left; auto.
  - inversion Hm as [|b m' Hs' Hf']; subst.
    + exfalso; apply (proj1 (He a)); left; auto.
    + rewrite Forall_forall in Hf, Hf'.
      assert (a = b) as ->.
      { destruct (proj1 (He a) (or_introl eq_refl)) as [|Ha]; [auto|].
        destruct (proj2 (He b) (or_introl eq_refl)) as [|Hb]; [auto|].
        specialize (Hf b Hb); specialize (Hf' a Ha); lia. }
      f_equal; apply IH; [exact Hs'|]. intros x; split; intros Hx.
      * destruct (proj1 (He x) (or_intror Hx)) as [->|]; auto.
        specialize (Hf x Hx); lia.
      * destruct (proj2 (He x) (or_intror Hx)) as [->|]; auto.
        specialize (Hf' x Hx); lia.
Qed.

Lemma uniq_length_le l : (length (uniq l) <= length l)%nat.
Proof.
  assert (H : forall a l, (length (uins a l) <= S (length l))%nat).
  { intros a m; induction m as [|b t IH]; cbn [uins length]; [lia|].
    destruct (a <? b); cbn [length]; [lia|].
    destruct (a =? b); cbn [length]; lia. }
  induction l as [|a t IH]; cbn [uniq length]; [lia|].
  specialize (H a (uniq t)); lia.
Qed.

Lemma uniq_nodup_length l : length (uniq l) = length l <-> NoDup l.
Proof.
  split.
  - intros H. apply (@NoDup_incl_NoDup _ (uniq l) l).
    + apply uniq_nodup.
    + lia.
    + intros x; apply uniq_in.
  - intros H; apply Nat.le_antisymm; [apply uniq_length_le|].
    apply NoDup_incl_length; auto. intros x; apply uniq_in.
Qed.

Lemma index_of_some a l i :
  index_of a l = Some i ->
  (i < length l)%nat /\ nth_error l i = Some a /\
  forall j, (j < i)%nat -> nth_error l j <> Some a.
Proof.
  revert i; induction l as [|b t IH]; intros i; cbn [index_of]; [discriminate|].
  destruct (Z.eqb_spec b a).
  - intros H; injection H as <-; subst; cbn; repeat split; auto; lia.
  - destruct (index_of a t) as [k|] eqn:E; [|discriminate].
    intros H; injection H as <-.
    destruct (IH k eq_refl) as [H1 [H2 H3]]; cbn [length]; repeat split; [lia|exact H2|].
    intros [|j] Hj; cbn; [congruence | apply H3; lia].
Qed.

Lemma index_of_in a l : In a l -> exists i, index_of a l = Some i.
Proof.
  induction l as [|b t IH]; intros H; [destruct H|].
  cbn [index_of]; destruct (Z.eqb_spec b a); [eauto|].
  destruct H as [|H]; [congruence|].
  destruct (IH H) as [i ->]; eauto.
Qed.

Lemma index_of_none a l : index_of a l = None <-> ~ In a l.
Proof.
  split.
  - intros H Hin; destruct (index_of_in a l Hin); congruence.
  - intros H; destruct (index_of a l) as [i|] eqn:E; auto.
    apply index_of_some in E; destruct E as [_ [E _]].
    apply nth_error_In in E; contradiction.
Qed.

Lemma index_of_nodup a l i :
  NoDup l -> nth_error l i = Some a -> index_of a l = Some i.
Proof.
  intros Hn Hi.
  destruct (index_of_in a l (nth_error_In _ _ Hi)) as [j Hj].
  rewrite Hj; f_equal.
  destruct (index_of_some _ _ _ Hj) as [H1 [H2 _]].
  eapply NoDup_nth_error; eauto; congruence.
Qed.
