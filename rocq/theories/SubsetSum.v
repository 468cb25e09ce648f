(* SubsetSum.v - model of src/divers/subset_sum.py (the test and print functions are left out).
   Integers are unbounded (the table has dtype int32). `while True` loops take a fuel; running out
   of it is the error OutOfFuel. Definitions only. *)
From Verif Require Import Base.
Local Open Scope Z_scope.

(** l[i] and l[i] = v; a negative index counts from the end *)
Definition get {A} (l : list A) (i : Z) : result A := match py_get l i with Some x => Ok x | None => Err IndexError end.
Definition put {A} (l : list A) (i : Z) (v : A) : result (list A) :=
  let j := if i <? 0 then i + zlen l else i in
  if ((0 <=? j) && (j <? zlen l))%bool then Ok (upd (Z.to_nat j) v l) else Err IndexError.

(** lines 33-40 backup_one: for i in range(told - 1, -1, -1) *)
Fixpoint backup_from (u : list Z) (i : nat) : result Z :=
  match i with
  | O => Ok (-1)
  | S k => do x <- get u (Z.of_nat k); if x =? 1 then Ok (Z.of_nat k) else backup_from u k
  end.
Definition backup_one (u : list Z) (told : Z) : result Z := backup_from u (Z.to_nat told).

(** lines 111-126 subset_next with n = len(t), on the reversed list *)
Fixpoint carry (r : list bool) : list bool * bool :=
  match r with
  | [] => ([], false)
  | false :: r' => (true :: r', true)
  | true :: r' => let (x, f) := carry r' in (false :: x, f)
  end.
Definition subset_next (t : list bool) (rank : Z) : list bool * Z :=
  if rank =? -1 then (t, 0)
  else let (x, f) := carry (rev t) in (rev x, if f then rank + 1 else -1).

(** lines 228-231: the sum of the selected weights *)
Definition selected (w : list Z) (s : list bool) : Z := fold_left (fun (t2 : Z) (p : Z * bool) => if snd p then t2 + fst p else t2) (List.combine w s) 0.

(** lines 217-237 subset_sum_count with n = len(w) *)
Fixpoint count_loop (fuel : nat) (w : list Z) (t : Z) (s : list bool) (rank count : Z) : result Z :=
  match fuel with
  | O => Err OutOfFuel
  | S f =>
    let (s, rank) := subset_next s rank in
    if rank =? -1 then Ok count
    else count_loop f w t s rank (if selected w s =? t then count + 1 else count)
  end.
Definition subset_sum_count (fuel : nat) (w : list Z) (t : Z) : result Z :=
  count_loop fuel w t (repeat false (length w)) (-1) 0.

(** lines 416-437 subset_sum_find with n = len(w) *)
Fixpoint find_loop (fuel : nat) (w : list Z) (t : Z) (s2 : list bool) (rank : Z) : result (list bool) :=
  match fuel with
  | O => Err OutOfFuel
  | S f =>
    let (s2, rank) := subset_next s2 rank in
    if rank =? -1 then Ok (repeat false (length w))
    else if selected w s2 =? t then Ok s2 else find_loop f w t s2 rank
  end.
Definition subset_sum_find (fuel : nat) (w : list Z) (t : Z) : result (list bool) :=
  find_loop fuel w t (repeat false (length w)) (-1).

(** np.dot(u, v) *)
Definition dot (u v : list Z) : result Z :=
  if (length u =? length v)%nat then Ok (sumZ (map (fun p => fst p * snd p) (List.combine u v))) else Err ValueError.

(** lines 639-675: the search for the next solution; the result is (more, u, t) *)
Fixpoint next_loop (fuel : nat) (s n : Z) (v u : list Z) (t : Z) : result (bool * list Z * Z) :=
  match fuel with
  | O => Err OutOfFuel
  | S f =>
    do su <- dot u v;
    if ((su <? s) && (t <? n - 1))%bool then
      do u <- put u (t + 1) 1; next_loop f s n v u (t + 1)
    else if su =? s then Ok (true, u, t)
    else
      do u <- put u t 0;
      do t <- backup_one u t;
      if t <? 0 then Ok (false, u, t)
      else
        do u <- put u t 0;
        do u <- put u (t + 1) 1;
        next_loop f s n v u (t + 1)
  end.
(** lines 630-675 subset_sum_next *)
Definition subset_sum_next (fuel : nat) (s n : Z) (v : list Z) (more : bool) (u : list Z) (t : Z) : result (bool * list Z * Z) :=
  if negb more then next_loop fuel s n v (repeat 0 (Z.to_nat n)) (-1)
  else
    do u <- put u t 0;
    do t <- backup_one u t;
    if t <? 0 then Ok (false, u, t)
    else
      do u <- put u t 0;
      do u <- put u (t + 1) 1;
      next_loop fuel s n v u (t + 1).
(** lines 707-729: the documented way to call it: all the solutions, one after the other *)
Fixpoint solutions (calls fuel : nat) (s n : Z) (v : list Z) (more : bool) (u : list Z) (t : Z) : result (list (list Z)) :=
  match calls with
  | O => Err OutOfFuel
  | S k =>
    do r <- subset_sum_next fuel s n v more u t;
    let '(more, u, t) := r in
    if more then do l <- solutions k fuel s n v more u t; Ok (u :: l) else Ok []
  end.

(** lines 858-869 subset_sum_table *)
Definition table_step (wi : Z) (table : list Z) (j : Z) : result (list Z) :=
  if j =? 0 then
    do x <- get table wi;
    if x =? 0 then put table wi wi else Ok table
  else
    do x <- get table j;
    if x =? 0 then Ok table
    else
      do y <- get table (j + wi);
      if y =? 0 then put table (j + wi) wi else Ok table.
Fixpoint steps {A B} (f : A -> B -> result A) (l : list B) (a : A) : result A :=
  match l with [] => Ok a | x :: r => do a <- f a x; steps f r a end.
(** range(m, -1, -1) *)
Definition down_from (m : Z) : list Z := rev (map Z.of_nat (seq 0 (Z.to_nat (m + 1)))).
Definition subset_sum_table (t : Z) (w : list Z) : result (list Z) :=
  steps (fun table wi => steps (table_step wi) (down_from (t - wi)) table) w (repeat 0 (Z.to_nat (t + 1))).

(** lines 1062-1071 subset_sum_table_to_list *)
Fixpoint to_list (fuel : nat) (table : list Z) (i : Z) (index : list Z) (m : Z) : result (Z * list Z) :=
  match fuel with
  | O => Err OutOfFuel
  | S f =>
    if 0 <? i then do x <- get table i; to_list f table (i - x) (index ++ [x]) (m + 1)
    else Ok (m, index)
  end.
Definition subset_sum_table_to_list (fuel : nat) (t : Z) (table : list Z) : result (Z * list Z) := to_list fuel table t [] 0.
