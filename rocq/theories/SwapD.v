(* SwapD.v - model of src/RELAY/repair_flexural_tools.py 43-174: the change of the flexural
   lamination parameters when two groups of plies exchange their fibre orientations.
   Floats are exact rationals. Definitions only. *)
From Verif Require Import Base Constraints Membrane Flexural.
Local Open Scope Z_scope.

(** lines 74-82: z_2, a vector; a position counts from 1 *)
Definition z_2 (n : Z) (pos : list Z) : list Q :=
  map (fun p => (cube (- inject_Z n / 2 * 1 + inject_Z p) - cube (- inject_Z n / 2 * 1 + inject_Z (p - 1)))%Q) pos.

(** np.matmul(np.matlib.repmat(cos_sin, 1, size), z): row k of the product *)
Definition contribution (factor : Q) (cs : nat -> Q) (z : list Q) (k : nat) : Q :=
  (factor * sumQ (map (fun x => cs k * x)%Q z))%Q.

(** lines 43-147; an unknown angle is a KeyError, a laminate without ply a ZeroDivisionError *)
Definition calc_delta_lampamD_swap (c : cons) (cos_sin : Z -> nat -> Q) (a1 a2 : Z) (pos1 pos2 : list Z) (n : Z) : result (list Q) :=
  do _ <- guard (negb (known c [a1; a2])) KeyError;
  do _ <- guard (n =? 0) ZeroDivision;
  let factor := ((if sym c then 8 else 4) / cube (inject_Z n))%Q in
  let z1 := z_2 n pos1 in let z2 := z_2 n pos2 in
  Ok (map (fun k =>
    (- contribution factor (cos_sin a1) z1 k + contribution factor (cos_sin a1) z2 k
     - contribution factor (cos_sin a2) z2 k + contribution factor (cos_sin a2) z1 k)%Q) (seq 0 4)).

(** lines 150-174 *)
Definition arange (first : Z) (size : nat) : list Z := map (fun k => first + Z.of_nat k) (seq 0 size).
Definition calc_delta_lampamD_swap_1 (c : cons) (cos_sin : Z -> nat -> Q) (a1 a2 : Z) (first1 first2 : Z) (size : nat) (n : Z) : result (list Q) :=
  calc_delta_lampamD_swap c cos_sin a1 a2 (arange first1 size) (arange first2 size) n.
