(* SpecGuidelines.v - independent statements of the lay-up guidelines, in terms of
   stacking sequences only (no model function is used here). *)
From Verif Require Import Base.

(** allowed fibre angles *)
Definition angle_ok (a : Z) : Prop := -90 < a <= 90.

(** the two fibre directions differ by at most delta: directions repeat every 180
    degrees *)
Definition diso_ok (delta a b : Z) : Prop :=
  exists k : Z, Z.abs (a - b + 180 * k) <= delta.

(** b lies directly on a *)
Definition adjacent (l : list Z) (a b : Z) : Prop :=
  exists l1 l2, l = l1 ++ a :: b :: l2.

Definition diso_stack (delta : Z) (l : list Z) : Prop :=
  forall a b, adjacent l a b -> diso_ok delta a b.

(** m is l without its first and its last ply *)
Definition inner_of (l m : list Z) : Prop :=
  (exists a b, l = a :: m ++ [b]) \/ ((length l < 2)%nat /\ m = []).

(** n consecutive plies of l share one angle *)
Definition has_block (n : nat) (l : list Z) : Prop :=
  exists a l1 l2, l = l1 ++ repeat a n ++ l2.

(** no more than n consecutive plies share one angle *)
Definition contig_stack (n : nat) (l : list Z) : Prop := ~ has_block (S n) l.

(** n consecutive plies starting at position i share one angle *)
Definition block_at (n i : nat) (l : list Z) : Prop :=
  exists a l1 l2, l = l1 ++ repeat a n ++ l2 /\ length l1 = i.

(** every angled ply has its opposite counterpart *)
Definition balanced (l : list Z) : Prop :=
  forall a, a <> 0 -> Z.abs a <> 90 ->
    count_occ Z.eq_dec l a = count_occ Z.eq_dec l (- a).

Definition pm45 (a : Z) : Prop := a = 45 \/ a = -45.

(** damage tolerance rules 1, 2, 3 *)
Definition damtol1 (l : list Z) : Prop :=
  (exists a m, l = a :: m /\ pm45 a) /\ (exists m z, l = m ++ [z] /\ pm45 z).
Definition damtol2 (l : list Z) : Prop :=
  (exists a m, l = a :: - a :: m /\ pm45 a) /\
  (exists m z, l = m ++ [- z; z] /\ pm45 z).
Definition damtol3 (l : list Z) : Prop :=
  (exists a b m, l = a :: b :: m /\ pm45 a /\ pm45 b) /\
  (exists m y z, l = m ++ [y; z] /\ pm45 y /\ pm45 z).

(** share of an angle in a laminate *)
Definition share_of (a : Z) (l : list Z) : Q :=
  (inject_Z (Z.of_nat (count_occ Z.eq_dec l a)) / inject_Z (Z.of_nat (length l)))%Q.
