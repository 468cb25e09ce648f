(* Properties_divers.v - property theorems C40 (sorting) and C42 (max_arrays). *)
From Verif Require Import Base Uniq Divers DiversProofs.

(** C40: with a reference order that lists no element of A1 twice, the new value of
    A1 is a permutation: first the elements listed in A2, in the order of A2, then
    the others in increasing order. *)
Theorem C40_sortAccording : forall A1 A2,
  (forall a, In a A1 -> count a A2 <= 1) ->
  exists front back, sortAccording A1 A2 = Ok (front ++ back) /\
    Permutation (front ++ back) A1 /\
    (forall x, In x front -> In x A2) /\
    StronglySorted (fun x y => exists i j, (i <= j)%nat /\
                       nth_error A2 i = Some x /\ nth_error A2 j = Some y) front /\
    (forall x, In x back -> ~ In x A2) /\ StronglySorted Z.le back.
Proof. exact sortAccording_sorts. Qed.
Print Assumptions C40_sortAccording.

(** C40: the binary search finds the first occurrence, or returns -1 *)
Theorem C40_binary_search : forall arr x, StronglySorted Z.le arr ->
  exists f, first (S (length arr)) arr 0 (zlen arr - 1) x = Ok f /\
    ((f = -1 /\ ~ In x arr) \/
     (exists i, f = Z.of_nat i /\ nth_error arr i = Some x /\
                forall j, (j < i)%nat -> nth_error arr j <> Some x)).
Proof.
  intros arr x H; rewrite first_spec by exact H; eexists; split; [reflexivity|].
  destruct (index_of x arr) as [i|] eqn:E.
  - right; exists i; destruct (index_of_some _ _ _ E) as [_ [H1 H2]]; auto.
  - left; split; auto; apply index_of_none; exact E.
Qed.
Print Assumptions C40_binary_search.

(** C40, limit of validity: a reference order that lists an element of A1 twice makes
    the function fail with an IndexError (after it has overwritten A1). *)
Theorem C40_repeated_reference_fails : forall A1 A2 a,
  In a A1 -> 2 <= count a A2 -> sortAccording A1 A2 = Err IndexError.
Proof.
  intros A1 A2 a Ha Hc; apply sortAccording_eq; intros H; specialize (H a Ha); lia.
Qed.
Print Assumptions C40_repeated_reference_fails.

Example C40_example : (forall a, In a [2; 1; 2; 5; 7; 1; 9; 3] -> count a [2; 1; 8; 3] <= 1) /\
  sortAccording [2; 1; 2; 5; 7; 1; 9; 3] [2; 1; 8; 3] = Ok [2; 2; 1; 1; 3; 5; 7; 9] /\
  sortAccording [2; 1] [2; 2] = Err IndexError.
Proof.
  repeat split; try reflexivity.
  intros a Ha; cbn in Ha; intuition; subst; vm_compute; congruence.
Qed.

(** C42: sizes n1 and n2 are accepted exactly when they agree or one of them is one;
    the result has the size of the larger array and holds, at every position, the
    maximum of the two values (a size-one argument counts for every position). *)
Theorem C42_max_arrays : forall a1 a2,
  let n1 := length (as_array a1) in let n2 := length (as_array a2) in
  if (Nat.eqb n1 1 || Nat.eqb n2 1 || Nat.eqb n1 n2)%bool
  then exists r, max_arrays a1 a2 = Ok r /\
       length r = (if Nat.eqb n1 1 then n2 else n1) /\
       forall i, (i < length r)%nat ->
         let x := at_pos (as_array a1) i in let y := at_pos (as_array a2) i in
         (x <= nth i r 0%Q)%Q /\ (y <= nth i r 0%Q)%Q /\
         (nth i r 0%Q = x \/ nth i r 0%Q = y)
  else max_arrays a1 a2 = Err ValueError.
Proof. exact max_arrays_spec. Qed.
Print Assumptions C42_max_arrays.

Example C42_example :
  max_arrays (Array [1; 4; 5]%Q) (Array [4; 3; 5]%Q) = Ok [4; 4; 5]%Q /\
  max_arrays (Scalar 2) (Array [4; 1; 5]%Q) = Ok [4; 2; 5]%Q /\
  max_arrays (Array [4; 1]%Q) (Array [4; 1; 5]%Q) = Err ValueError.
Proof. vm_compute; auto. Qed.
