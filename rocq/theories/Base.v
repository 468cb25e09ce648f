(* Base.v - shared vocabulary of the model: exceptions as values, Python-like
   list access, counting, and general list lemmas.  No BELLA logic here. *)
From Coq Require Export List Arith ZArith QArith Lia Bool Permutation.
From Coq Require Export Sorting.Sorted.
From Coq Require Export Qabs.
Export ListNotations.
Open Scope Z_scope.

(* ------------------------------------------------------------------ *)
(** * Exceptions as values *)

(** Why an explicit [raise Exception(...)] of the code fires. *)
Inductive reason :=
| WrongPlyCount | DamTolViolated | BalanceViolated | IpoViolated
| DisoViolated | ContigViolated | TenPercentViolated | CoveringViolated
| SpacingViolated | NotCoded | BadDefinition | NoDivision | NoNode
| Disconnected | DuplicateId | SizeMismatch | BadAngles | BadPanel
| RefStackChanged | Other.

Inductive exn :=
| Raised (r : reason)      (* explicit raise in the code *)
| IndexError               (* list/array index out of range *)
| KeyError
| ZeroDivision
| TypeError
| ValueError               (* numpy shape / argmin of empty / negative dim *)
| Unbound                  (* use of an unassigned local variable *)
| OutOfFuel.               (* model artefact: fuel of a while loop exhausted *)

Inductive result (A : Type) :=
| Ok (a : A)
| Err (e : exn).
Arguments Ok {A} a.
Arguments Err {A} e.

Definition bind {A B} (r : result A) (f : A -> result B) : result B :=
  match r with Ok a => f a | Err e => Err e end.
Notation "'do' x <- r ; k" := (bind r (fun x => k))
  (at level 200, x pattern, r at level 100, k at level 200, right associativity).

Definition is_ok {A} (r : result A) : bool :=
  match r with Ok _ => true | Err _ => false end.

(** [raise] when the test holds, otherwise go on. *)
Definition guard (bad : bool) (e : exn) : result unit :=
  if bad then Err e else Ok tt.

(* ------------------------------------------------------------------ *)
(** * Lists, Python style *)

(** size of a sequence as a [Z] *)
Definition zlen {A} (l : list A) : Z := Z.of_nat (length l).

(** [l[i]] with Python's negative indices; [None] is IndexError *)
Definition py_get {A} (l : list A) (i : Z) : option A :=
  if (0 <=? i) then (if i <? zlen l then nth_error l (Z.to_nat i) else None)
  else (if (- zlen l <=? i) then nth_error l (Z.to_nat (zlen l + i)) else None).

(** numpy/python slice [l[a:b]] for 0 <= a, 0 <= b *)
Definition slice {A} (a b : nat) (l : list A) : list A :=
  firstn (b - a) (skipn a l).

(** [l[1:-1]] *)
Definition trim {A} (l : list A) : list A := removelast (tl l).

(** [l[-n:]] for n >= 1: the last n elements (all if fewer) *)
Definition lastn {A} (n : nat) (l : list A) : list A :=
  skipn (length l - n) l.

(** number of occurrences of an angle, [sum(l == a)] *)
Definition count (a : Z) (l : list Z) : Z := Z.of_nat (count_occ Z.eq_dec l a).

(** [x in l] *)
Definition memb (a : Z) (l : list Z) : bool := existsb (Z.eqb a) l.

Definition sumZ (l : list Z) : Z := fold_right Z.add 0 l.
Definition sumQ (l : list Q) : Q := fold_right Qplus 0%Q l.
Definition sumN (l : list nat) : nat := fold_right Nat.add 0%nat l.

(** number of elements satisfying a test *)
Definition countb {A} (p : A -> bool) (l : list A) : nat := length (filter p l).

(** functional update of position i (no effect when out of range) *)
Fixpoint upd {A} (i : nat) (x : A) (l : list A) : list A :=
  match l, i with
  | [], _ => []
  | _ :: t, O => x :: t
  | h :: t, S j => h :: upd j x t
  end.

(** delete the element at position i (np.delete; no effect when out of range) *)
Fixpoint del {A} (i : nat) (l : list A) : list A :=
  match l, i with
  | [], _ => []
  | _ :: t, O => t
  | h :: t, S j => h :: del j t
  end.

(* ------------------------------------------------------------------ *)
(** * List lemmas *)

Lemma memb_true a l : memb a l = true <-> In a l.
Proof.
  unfold memb; rewrite existsb_exists; split.
  - intros [x [Hx He]]; apply Z.eqb_eq in He; subst; exact Hx.
  - intros H; exists a; split; [exact H | apply Z.eqb_refl].
Qed.

Lemma memb_false a l : memb a l = false <-> ~ In a l.
Proof.
  rewrite <- memb_true; destruct (memb a l); split; intros; congruence.
Qed.

Lemma zlen_nonneg {A} (l : list A) : 0 <= zlen l.
Proof. unfold zlen; lia. Qed.

Lemma zlen_app {A} (l m : list A) : zlen (l ++ m) = zlen l + zlen m.
Proof. unfold zlen; rewrite app_length; lia. Qed.

Lemma count_nonneg a l : 0 <= count a l.
Proof. unfold count; lia. Qed.

Lemma count_nil a : count a [] = 0.
Proof. reflexivity. Qed.

Lemma count_cons a b l :
  count a (b :: l) = (if Z.eq_dec b a then 1 else 0) + count a l.
Proof. unfold count; cbn [count_occ]; destruct (Z.eq_dec b a); lia. Qed.

Lemma count_app a l m : count a (l ++ m) = count a l + count a m.
Proof. unfold count; rewrite count_occ_app; lia. Qed.

Lemma count_rev a l : count a (rev l) = count a l.
Proof.
  induction l as [|x l IH]; [reflexivity|].
  cbn [rev]; rewrite count_app, !count_cons, IH, count_nil; lia.
Qed.

Lemma count_perm a l m : Permutation l m -> count a l = count a m.
Proof.
  intros H; unfold count; f_equal.
  now apply (proj1 (Permutation_count_occ Z.eq_dec l m)).
Qed.

Lemma perm_count l m : (forall a, count a l = count a m) -> Permutation l m.
Proof.
  intros H; apply (Permutation_count_occ Z.eq_dec); intros a.
  specialize (H a); unfold count in H; lia.
Qed.

Lemma count_pos a l : 0 < count a l <-> In a l.
Proof.
  rewrite (count_occ_In Z.eq_dec); unfold count; lia.
Qed.

Lemma count_zero a l : count a l = 0 <-> ~ In a l.
Proof.
  rewrite <- count_pos; pose proof (count_nonneg a l); lia.
Qed.

Lemma count_le_len a l : count a l <= zlen l.
Proof.
  unfold zlen; induction l as [|x l IH]; [rewrite count_nil; cbn; lia|].
  rewrite count_cons; cbn [length]; destruct (Z.eq_dec x a); lia.
Qed.

Lemma count_repeat a b n :
  count a (repeat b n) = if Z.eq_dec b a then Z.of_nat n else 0.
Proof.
  induction n as [|n IH]; cbn [repeat].
  - rewrite count_nil; destruct (Z.eq_dec b a); reflexivity.
  - rewrite count_cons, IH; destruct (Z.eq_dec b a); lia.
Qed.

Lemma upd_length {A} i (x : A) l : length (upd i x l) = length l.
Proof.
  revert i; induction l as [|h t IH]; intros [|i]; cbn; auto.
Qed.

Lemma nth_error_upd_eq {A} i (x : A) l :
  (i < length l)%nat -> nth_error (upd i x l) i = Some x.
Proof.
  revert i; induction l as [|h t IH]; intros [|i] H; cbn in *; try lia; auto.
  apply IH; lia.
Qed.

Lemma nth_error_upd_neq {A} i j (x : A) l :
  i <> j -> nth_error (upd i x l) j = nth_error l j.
Proof.
  revert i j; induction l as [|h t IH]; intros [|i] [|j] H; cbn; auto; try lia.
Qed.

Lemma nth_upd {A} i j (x d : A) l :
  nth j (upd i x l) d =
  if (Nat.eqb i j && Nat.ltb i (length l))%bool then x else nth j l d.
Proof.
  revert i j; induction l as [|h t IH]; intros [|i] [|j]; cbn; auto.
  - destruct (Nat.eqb i j); reflexivity.
  - rewrite IH; reflexivity.
Qed.

Lemma del_length {A} i (l : list A) :
  (i < length l)%nat -> length (del i l) = (length l - 1)%nat.
Proof.
  revert i; induction l as [|h t IH]; intros [|i] H; cbn in *; try lia.
  rewrite IH by lia; lia.
Qed.

Lemma del_spec {A} i (l : list A) : del i l = firstn i l ++ skipn (S i) l.
Proof.
  revert i; induction l as [|h t IH]; intros [|i]; cbn; auto.
  rewrite IH; reflexivity.
Qed.

Lemma upd_spec {A} i (x : A) l :
  (i < length l)%nat -> upd i x l = firstn i l ++ x :: skipn (S i) l.
Proof.
  revert i; induction l as [|h t IH]; intros [|i] H; cbn in *; try lia; auto.
  rewrite IH by lia; reflexivity.
Qed.

Lemma forallb_seq (p : nat -> bool) n :
  forallb p (seq 0 n) = true <-> forall i, (i < n)%nat -> p i = true.
Proof.
  rewrite forallb_forall; split; intros H i Hi; apply H; rewrite in_seq in *; lia.
Qed.

Lemma existsb_seq (p : nat -> bool) n :
  existsb p (seq 0 n) = true <-> exists i, (i < n)%nat /\ p i = true.
Proof.
  rewrite existsb_exists; split; intros [i [Hi Hp]]; exists i; rewrite in_seq in *;
    split; auto; lia.
Qed.

Lemma skipn_skipn {A} a b (l : list A) : skipn a (skipn b l) = skipn (a + b) l.
Proof.
  revert l; induction b as [|b IH]; intros l.
  - rewrite Nat.add_0_r; reflexivity.
  - rewrite Nat.add_succ_r; destruct l as [|h t]; [now rewrite !skipn_nil|].
    cbn; apply IH.
Qed.

Lemma nth_skipn {A} i j (l : list A) d : nth i (skipn j l) d = nth (j + i) l d.
Proof.
  revert j; induction l as [|h t IH]; intros [|j]; cbn; auto.
  now destruct i.
Qed.

Lemma nth_firstn {A} i j (l : list A) d :
  (i < j)%nat -> nth i (firstn j l) d = nth i l d.
Proof.
  revert i j; induction l as [|h t IH]; intros i j H; destruct j; try lia.
  - now rewrite firstn_nil.
  - destruct i; cbn; auto. apply IH; lia.
Qed.

Lemma slice_length {A} a b (l : list A) :
  (b <= length l)%nat -> length (slice a b l) = (b - a)%nat.
Proof.
  intros H; unfold slice; rewrite firstn_length, skipn_length; lia.
Qed.

Lemma nth_slice {A} a b i (l : list A) d :
  (i < b - a)%nat -> nth i (slice a b l) d = nth (a + i) l d.
Proof.
  intros H; unfold slice; rewrite nth_firstn by exact H; apply nth_skipn.
Qed.

Lemma removelast_length {A} (l : list A) :
  length (removelast l) = (length l - 1)%nat.
Proof.
  induction l as [|a [|b t] IH]; auto.
  cbn [removelast length] in *; rewrite IH; lia.
Qed.

Lemma trim_length {A} (l : list A) : length (trim l) = (length l - 2)%nat.
Proof.
  unfold trim; rewrite removelast_length; destruct l; cbn [tl length]; lia.
Qed.

Lemma removelast_snoc {A} (l : list A) x : removelast (l ++ [x]) = l.
Proof. apply removelast_last. Qed.

Lemma trim_spec {A} a (m : list A) b : trim (a :: m ++ [b]) = m.
Proof. unfold trim; cbn [tl]; apply removelast_last. Qed.

Lemma nth_removelast {A} i (l : list A) d :
  (i < length l - 1)%nat -> nth i (removelast l) d = nth i l d.
Proof.
  revert i; induction l as [|a [|b t] IH]; intros i H; cbn [length] in *; try lia.
  destruct i as [|i]; auto.
  change (nth i (removelast (b :: t)) d = nth i (b :: t) d).
  apply IH; cbn [length]; lia.
Qed.

Lemma nth_trim {A} i (l : list A) d :
  (i < length l - 2)%nat -> nth i (trim l) d = nth (S i) l d.
Proof.
  intros H; unfold trim; destruct l as [|a t]; cbn [tl length] in *; [lia|].
  rewrite nth_removelast by lia; reflexivity.
Qed.

Lemma length_zero_iff {A} (l : list A) : length l = 0%nat <-> l = [].
Proof. destruct l; cbn; split; intros; congruence. Qed.

Lemma list_ext {A} (l m : list A) d :
  length l = length m ->
  (forall i, (i < length l)%nat -> nth i l d = nth i m d) -> l = m.
Proof. intros H H'; eapply nth_ext; eauto. Qed.

Lemma countb_zero {A} (p : A -> bool) l :
  countb p l = 0%nat <-> forall x, In x l -> p x = false.
Proof.
  unfold countb; induction l as [|h t IH]; cbn [filter]; [split; auto; intros _ x []|].
  destruct (p h) eqn:E; cbn [length].
  - split; [lia|]. intros H; specialize (H h (or_introl eq_refl)); congruence.
  - rewrite IH; split.
    + intros H x [->|Hx]; auto.
    + intros H x Hx; apply H; right; exact Hx.
Qed.

Lemma countb_app {A} (p : A -> bool) l m :
  countb p (l ++ m) = (countb p l + countb p m)%nat.
Proof. unfold countb; rewrite filter_app, app_length; reflexivity. Qed.

Lemma countb_cons {A} (p : A -> bool) a l :
  countb p (a :: l) = ((if p a then 1 else 0) + countb p l)%nat.
Proof. unfold countb; cbn [filter]; destruct (p a); reflexivity. Qed.

Lemma countb_le {A} (p : A -> bool) l : (countb p l <= length l)%nat.
Proof.
  induction l as [|a l IH]; [auto|].
  rewrite countb_cons; cbn [length]; destruct (p a); lia.
Qed.

Lemma countb_ext {A} (p q : A -> bool) l :
  (forall x, In x l -> p x = q x) -> countb p l = countb q l.
Proof.
  induction l as [|a l IH]; intros H; auto.
  rewrite !countb_cons, IH by (intros x Hx; apply H; right; exact Hx).
  rewrite H by (left; reflexivity); reflexivity.
Qed.

Lemma countb_map {A B} (f : A -> B) (p : B -> bool) l :
  countb p (map f l) = countb (fun x => p (f x)) l.
Proof.
  induction l as [|a l IH]; auto; cbn [map]; rewrite !countb_cons, IH; auto.
Qed.

Lemma sumZ_app l m : sumZ (l ++ m) = sumZ l + sumZ m.
Proof. induction l as [|a l IH]; cbn [sumZ fold_right app] in *; [auto|]. 
  fold (sumZ (l ++ m)); fold (sumZ l); unfold sumZ in *; lia. Qed.

Lemma sumZ_cons a l : sumZ (a :: l) = a + sumZ l.
Proof. reflexivity. Qed.

Lemma sumZ_nonneg l : (forall x, In x l -> 0 <= x) -> 0 <= sumZ l.
Proof.
  induction l as [|a l IH]; intros H; [cbn; lia|].
  rewrite sumZ_cons.
  specialize (IH (fun x Hx => H x (or_intror Hx))).
  specialize (H a (or_introl eq_refl)); lia.
Qed.

Lemma sumZ_zero l :
  (forall x, In x l -> 0 <= x) -> sumZ l = 0 -> forall x, In x l -> x = 0.
Proof.
  induction l as [|a l IH]; intros H Hs x Hx; [destruct Hx|].
  rewrite sumZ_cons in Hs.
  pose proof (sumZ_nonneg l (fun y Hy => H y (or_intror Hy))) as Hn.
  pose proof (H a (or_introl eq_refl)).
  destruct Hx as [->|Hx]; [lia|].
  apply IH; auto; [intros y Hy; apply H; right; exact Hy | lia].
Qed.
