(* Divers.v - model of src/divers/sorting.py and src/divers/arrays.py.
   Definitions only. *)
From Verif Require Import Base.

(** [l[i]] or IndexError *)
Definition get {A} (l : list A) (i : Z) : result A :=
  match py_get l i with Some x => Ok x | None => Err IndexError end.

(** sorting.py:9-18 [first]; recursion on fuel, OutOfFuel is a model artefact
    (proved unreachable); [n] is unused by the code and left out *)
Fixpoint first (fuel : nat) (arr : list Z) (low high x : Z) : result Z :=
  match fuel with
  | O => Err OutOfFuel
  | S f =>
    if low <=? high then
      let mid := low + (high - low) / 2 in
      do c <- (if mid =? 0 then Ok true
               else do p <- get arr (mid - 1); Ok (p <? x));
      do am <- get arr mid;
      if (c && (am =? x))%bool then Ok mid
      else if am <? x then first f arr (mid + 1) high x
      else first f arr low (mid - 1) x
    else Ok (-1)
  end.

(** list.sort() on integers (sorting.py:37) as insertion sort *)
Fixpoint insert (a : Z) (l : list Z) : list Z :=
  match l with
  | [] => [a]
  | b :: t => if a <=? b then a :: b :: t else b :: insert a t
  end.
Fixpoint isort (l : list Z) : list Z :=
  match l with [] => [] | a :: t => insert a (isort t) end.

(** the variables A1, visited and ind of sortAccording *)
Record sst := { out : list Z; visited : list bool; ind : nat }.

(** sorting.py:57-58, 66-67  A1[ind] = v; ind = ind + 1 *)
Definition put (s : sst) (v : Z) : result sst :=
  if Nat.ltb (ind s) (length (out s))
  then Ok {| out := upd (ind s) v (out s); visited := visited s; ind := S (ind s) |}
  else Err IndexError.

(** sorting.py:56-60, the while loop; [rest] is temp[j:] *)
Fixpoint copy_run (rest : list Z) (a : Z) (j : nat) (s : sst) : result sst :=
  match rest with
  | [] => Ok s
  | t :: r =>
    if t =? a then
      do s' <- put s t;
      copy_run r a (S j) {| out := out s'; visited := upd j true (visited s');
                            ind := ind s' |}
    else Ok s
  end.

(** sorting.py:44-60, loop over A2 *)
Fixpoint copy_all (temp A2 : list Z) (s : sst) : result sst :=
  match A2 with
  | [] => Ok s
  | a :: t =>
    do f <- first (S (length temp)) temp 0 (zlen temp - 1) a;
    if f =? -1 then copy_all temp t s
    else do s' <- copy_run (skipn (Z.to_nat f) temp) a (Z.to_nat f) s;
         copy_all temp t s'
  end.

(** sorting.py:64-67; [rest] is temp[i:], [vis] is visited[i:] *)
Fixpoint copy_rest (rest : list Z) (vis : list bool) (s : sst) : result sst :=
  match rest, vis with
  | t :: r, v :: w => if v then copy_rest r w s
                      else do s' <- put s t; copy_rest r w s'
  | _, _ => Ok s
  end.

(** sorting.py:22-67 [sortAccording]: the value of A1 after the call *)
Definition sortAccording (A1 A2 : list Z) : result (list Z) :=
  let temp := isort A1 in
  do s <- copy_all temp A2 {| out := A1; visited := repeat false (length A1); ind := 0 |};
  do s' <- copy_rest temp (visited s) s;
  Ok (out s').

(** Python's max of two numbers *)
Definition Qmax2 (a b : Q) : Q := if Qle_bool b a then a else b.

(** element-wise maximum over range(array2.size) *)
Fixpoint map2 {A B C} (f : A -> B -> C) (l : list A) (m : list B) : list C :=
  match l, m with a :: l', b :: m' => f a b :: map2 f l' m' | _, _ => [] end.

(** an argument of max_arrays: a Python number or a one-dimensional array *)
Inductive arg := Scalar (x : Q) | Array (l : list Q).
Definition as_array (a : arg) : list Q :=
  match a with Scalar x => [x] | Array l => l end.

(** arrays.py:9-50 [max_arrays] *)
Definition max_arrays (a1 a2 : arg) : result (list Q) :=
  let array1 := as_array a1 in
  let array2 := as_array a2 in
  match array1 with
  | [x] =>
    match array2 with
    | [y] => Ok [Qmax2 x y]
    | _ => Ok (map2 Qmax2 (repeat x (length array2)) array2)
    end
  | _ =>
    match array2 with
    | [y] => Ok (map2 Qmax2 array1 (repeat y (length array1)))
    | _ => if negb (Nat.eqb (length array1) (length array2)) then Err ValueError
           else Ok (map2 Qmax2 array1 array2)
    end
  end.
