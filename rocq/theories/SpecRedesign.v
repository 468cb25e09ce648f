(* SpecRedesign.v - vocabulary for the re-design of the ply drops (C37, C38): a table of
   stacking sequences has one row per panel, thinnest panel first; -1 marks a dropped ply *)
From Verif Require Import Base.
Local Open Scope Z_scope.

Definition dropped : Z := -1.
(** the plies of a panel *)
Definition plies_of (row : list Z) : list Z := filter (fun x => negb (x =? dropped)) row.
(** [row] is [thicker] with some plies dropped, at the same positions of the table *)
Definition drops_from (row thicker : list Z) : Prop := Forall2 (fun x y => x = y \/ x = dropped) row thicker.
(** a stacking sequence obtained from another by only removing plies *)
Inductive sublist : list Z -> list Z -> Prop :=
| sub_nil : sublist [] []
| sub_keep x l m : sublist l m -> sublist (x :: l) (x :: m)
| sub_skip x l m : sublist l m -> sublist l (x :: m).
(** blended table: each row is the next one with some plies dropped *)
Definition blended (sst : list (list Z)) : Prop :=
  forall i, (S i < length sst)%nat -> drops_from (nth i sst []) (nth (S i) sst []).
Definition palindrome (l : list Z) : Prop := l = rev l.
(** excess of the plies at [a] over those at [- a] *)
Definition excess_at (a : Z) (l : list Z) : Z := count a l - count (- a) l.
Definition off_axis (a : Z) : Prop := a <> 0 /\ a <> 90 /\ a <> -90.

Lemma drops_sublist r t : drops_from r t -> ~ In dropped t -> sublist (plies_of r) t.
Proof.
  intros H. induction H as [|x y r t E H IH]; intros N; [constructor|]. cbn [plies_of filter].
  specialize (IH ltac:(intros X; apply N; now right)). destruct (Z.eqb_spec x dropped) as [D|D]; cbn [negb].
  - apply sub_skip, IH.
  - destruct E as [->|E]; [|congruence]. apply sub_keep, IH.
Qed.
Lemma drops_sublist_plies r t : drops_from r t -> sublist (plies_of r) (plies_of t).
Proof.
  intros H. induction H as [|x y r t E H IH]; [constructor|]. cbn [plies_of filter].
  destruct (Z.eqb_spec x dropped) as [D|D]; cbn [negb].
  - destruct (negb (y =? dropped)); [apply sub_skip, IH|apply IH].
  - destruct E as [->|E]; [|congruence]. destruct (Z.eqb_spec y dropped); [congruence|]. apply sub_keep, IH.
Qed.
