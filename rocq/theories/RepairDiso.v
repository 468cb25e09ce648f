(* RepairDiso.v - model of src/RELAY/repair_diso_contig.py, repair_diso_contig_tools.py and
   repair_from_{outside,inside}_{sym,asym}.py with the Constraints of src/BELLA (the attribute
   dam_tol_rule exists). 666 is an unknown ply. n_D1 is a natural number. Definitions only. *)
From Verif Require Import Base Constraints Guidelines PdlTools Divide Repair10.
Local Open Scope Z_scope.

(* ------------------------------------------------------------------ *)
(** repair_diso_contig_tools.py *)

(** one column of smallest_row (lines 33-44): the rows are sorted on the column and those
    equal to the first are kept; argsort may reorder the rows, which does not show in the
    result because all rows left at the end are equal *)
Definition keep_smallest (rows : list (list nat)) (ind : nat) : list (list nat) :=
  let m := fold_right Nat.min (nth ind (hd [] rows) 0%nat) (map (fun r => nth ind r 0%nat) rows) in
  filter (fun r => Nat.eqb (nth ind r 0%nat) m) rows.

(** lines 22-52 smallest_row *)
Definition smallest_row (rows : list (list nat)) : option (list nat) :=
  match rows with
  | [] => None
  | r :: _ => Some (hd [] (fold_left keep_smallest (seq 0 (length r)) rows))
  end.

(** itertools.permutations(range(n)), in lexicographic order *)
Fixpoint selects {A} (l : list A) : list (A * list A) :=
  match l with [] => [] | x :: t => (x, t) :: map (fun p => (fst p, x :: snd p)) (selects t) end.
Fixpoint perms {A} (n : nat) (l : list A) : list (list A) :=
  match n with
  | O => [[]]
  | S n => flat_map (fun p => map (fun l => fst p :: l) (perms n (snd p))) (selects l)
  end.
Definition permutations (n : nat) : list (list nat) := perms n (seq 0 n).

(** lines 247-296 order_plies_to_test with one adjacent ply: [todo] are the angles whose
    difference is not yet 666, with their differences; every round takes the angles of the
    smallest absolute difference (one of them, or both when there are exactly two, the one
    with the positive difference first) *)
Fixpoint order_loop (fuel : nat) (todo : list (Z * Z)) : list Z :=
  match fuel, todo with
  | O, _ => []
  | _, [] => []
  | S fuel, (_, d0) :: _ =>
    let m := fold_right Z.min (Z.abs d0) (map (fun p => Z.abs (snd p)) todo) in
    match filter (fun p => Z.abs (snd p) =? m) todo with
    | [(a1, d1); (a2, d2)] =>
      (if 0 <? d1 then [a1; a2] else [a2; a1]) ++ order_loop fuel (filter (fun p => negb (Z.abs (snd p) =? m)) todo)
    | (a1, d1) :: _ =>
      a1 :: order_loop fuel (filter (fun p => negb (fst p =? a1)) todo)
    | [] => []
    end
  end.
Definition order_plies_to_test (adjacent : Z) (queue : list Z) (c : cons) : list Z :=
  filter (fun a => memb a queue)
    (order_loop (length (set_of_angles c)) (map (fun a => (a, calc_delta_angle_2 adjacent a)) (set_of_angles c))).

(* ------------------------------------------------------------------ *)
(** two outer plies on each side are left alone *)
Definition two_outer (c : cons) : bool :=
  (dam_tol c && (Nat.eqb (dam_tol_rule c) 2 || Nat.eqb (dam_tol_rule c) 3))%bool.
(** number of outer plies left alone by the inward and by the outward repair *)
Definition n_outer_out (c : cons) : nat := if two_outer c then 2%nat else 1%nat.
Definition n_outer_in (c : cons) : nat := if two_outer c then 2%nat else if dam_tol c then 1%nat else 0%nat.

(** the inner loop common to the four repairs: the first ply of [ind2] that may be stacked;
    for an unknown ply the angles of the queue are tried in order of preference *)
Fixpoint findR (f : Z -> result bool) (l : list Z) : result (option Z) :=
  match l with [] => Ok None | a :: t => do b <- f a; if b then Ok (Some a) else findR f t end.
Fixpoint pick (ss : list Z) (acc : Z -> result bool) (cands : list Z -> list Z) (ind2 : list nat) (q : list Z)
  : result (option (Z * nat * list Z)) :=
  match ind2 with
  | [] => Ok None
  | i :: t =>
    if negb (nth i ss 0 =? 666) then
      do b <- acc (nth i ss 0); if b then Ok (Some (nth i ss 0, i, q)) else pick ss acc cands t q
    else
      do o <- findR acc (cands q);
      match o with Some a => Ok (Some (a, i, remove1 a q)) | None => pick ss acc cands t q end
  end.
(** np.delete(ind_2, np.argwhere(ind_2 == i)) *)
Definition drop (i : nat) (l : list nat) : list nat := filter (fun j => negb (Nat.eqb j i)) l.

(** the plies of [ind2] in order, unknown plies taken from the front of the queue *)
Fixpoint rest (ss : list Z) (ind2 : list nat) (q : list Z) : result (list Z * list Z) :=
  match ind2 with
  | [] => Ok ([], q)
  | i :: t =>
    if negb (nth i ss 0 =? 666) then do r <- rest ss t q; Ok (nth i ss 0 :: fst r, snd r)
    else match q with [] => Err IndexError | x :: q => do r <- rest ss t q; Ok (x :: fst r, snd r) end
  end.

(** the tests of a group of plies in its surroundings *)
Definition group_ok (c : cons) (st : list Z) : result bool :=
  do d <- (if diso c then is_diso_ss st (delta_angle c) false None None else Ok true);
  if negb d then Ok false
  else if contig c then match n_contig_c c with Some n => is_contig st n | None => Err TypeError end else Ok true.
Definition arranged (rem : list Z) (p : list nat) : list Z := map (fun i => nth i rem 0) p.

(* ------------------------------------------------------------------ *)
(** repair_from_outside_sym.py 26-203 *)
Definition acc_out (c : cons) (stack : list Z) (a : Z) : result bool :=
  let st := stack ++ [a] in
  if (diso c && negb (is_diso a (last stack 0) (delta_angle c)))%bool then Ok false
  else if contig c then is_contig (skipn (length st - n_contig c - 1) st) (n_contig c) else Ok true.

(** stack, remaining indices, queue, completed *)
Fixpoint out_loop (c : cons) (ss : list Z) (k : nat) (stack : list Z) (ind2 : list nat) (q : list Z)
  : result (list Z * list nat * list Z * bool) :=
  match k with
  | O => Ok (stack, ind2, q, true)
  | S k =>
    do o <- pick ss (acc_out c stack) (fun q => order_plies_to_test (last stack 0) q c) ind2 q;
    match o with
    | Some (a, i, q') => out_loop c ss k (stack ++ [a]) (drop i ind2) q'
    | None => Ok (stack, ind2, q, false)
    end
  end.

Definition middle (ss : list Z) : list Z := if Nat.odd (length ss) then [nth (length ss / 2) ss 0] else [].

Definition out_window (ss stack grp : list Z) : list Z :=
  let r := length grp in
  let w := skipn (length stack - r - 1) stack ++ grp in
  w ++ middle ss ++ rev (if Nat.eqb r 0 then w else lastn r w).

(** the laminate, the success and the queue left over *)
Definition outside_sym (c : cons) (n_D1 : nat) (ss q : list Z) : result (list Z * bool * list Z) :=
  let n := length ss in let d := n_outer_out c in
  if Nat.ltb n d then Err IndexError else
  do o <- out_loop c ss (n / 2 - n_D1 - d) (firstn d ss) (seq d (n / 2 - d)) q;
  let '(stack, ind2, q, done) := o in
  do r <- rest ss ind2 q;
  let (rem, q) := r in
  if negb done then Ok (stack ++ rem ++ middle ss ++ rev (stack ++ rem), false, q)
  else if Nat.ltb (length stack) (n / 2 - n_D1) then Err (Raised Other)
  else
    do good <- filterR (fun p => group_ok c (out_window ss stack (arranged rem p))) (permutations (length ind2));
    match smallest_row good with
    | None => Ok (stack ++ rem ++ middle ss ++ rev (stack ++ rem), false, q)
    | Some p =>
      let h := stack ++ arranged rem p in
      let s := h ++ middle ss ++ rev h in
      if negb (Nat.eqb (length s) n) then Err (Raised Other) else Ok (s, true, q)
    end.

(* ------------------------------------------------------------------ *)
(** repair_from_inside_sym.py 26-160 *)
Definition acc_in (c : cons) (stack : list Z) (a : Z) : result bool :=
  let st := a :: stack ++ [a] in
  if (diso c && negb (is_diso a (nth 1 st 0) (delta_angle c)))%bool then Ok false
  else if contig c then is_contig (firstn (2 * n_contig c) st) (n_contig c) else Ok true.

Fixpoint in_loop (c : cons) (ss : list Z) (k : nat) (stack : list Z) (ind2 : list nat) (q : list Z)
  : result (list Z * list nat * list Z * bool) :=
  match k with
  | O => Ok (stack, ind2, q, true)
  | S k =>
    do o <- pick ss (acc_in c stack) (fun q => order_plies_to_test (last stack 0) q c) ind2 q;
    match o with
    | Some (a, i, q') => in_loop c ss k (a :: stack ++ [a]) (drop i ind2) q'
    | None => Ok (stack, ind2, q, false)
    end
  end.

Definition in_window (c : cons) (outer stack grp : list Z) : list Z :=
  let st := (if dam_tol c then [last outer 0] else []) ++ grp in
  firstn (2 + 2 * n_contig c + length grp) (st ++ stack ++ rev st).

Definition inside_sym (c : cons) (n_D1 : nat) (ss q : list Z) : result (list Z * bool * list Z) :=
  let n := length ss in let d := n_outer_in c in
  if (Nat.ltb n d || Nat.eqb n 0)%bool then Err IndexError else
  let centre := if Nat.odd n then [nth (n / 2) ss 0] else [nth (n / 2) ss 0; nth (n / 2) ss 0] in
  let outer := firstn d ss in
  let hi := (n / 2 + n mod 2 - 1)%nat in
  do o <- in_loop c ss (hi - (d + n_D1)) centre (rev (seq d (hi - d))) q;
  let '(stack, ind2, q, done) := o in
  do r <- rest ss ind2 q;
  let (rem, q) := r in
  if negb done then Ok (outer ++ rev rem ++ stack ++ rem ++ rev outer, false, q)
  else if Nat.ltb (length stack + 2 * length outer) (n - 2 * n_D1) then Err (Raised Other)
  else
    do good <- filterR (fun p => group_ok c (in_window c outer stack (arranged rem p))) (permutations (length ind2));
    match smallest_row good with
    | None => Ok (outer ++ rev rem ++ stack ++ rem ++ rev outer, false, q)
    | Some p =>
      let g := arranged rem p in
      let s := outer ++ g ++ stack ++ rev g ++ rev outer in
      if negb (Nat.eqb (length s) n) then Err (Raised Other) else Ok (s, true, q)
    end.

(* ------------------------------------------------------------------ *)
(** repair_from_outside_asym.py 27-217 *)
Definition acc_top (c : cons) (st : list Z) (a : Z) : result bool :=
  if (diso c && negb (is_diso a (last st 0) (delta_angle c)))%bool then Ok false
  else if contig c then is_contig (lastn (2 * n_contig c) (st ++ [a])) (n_contig c) else Ok true.
Definition acc_bottom (c : cons) (st : list Z) (a : Z) : result bool :=
  if (diso c && negb (is_diso a (hd 0 st) (delta_angle c)))%bool then Ok false
  else if contig c then is_contig (firstn (2 * n_contig c) (a :: st)) (n_contig c) else Ok true.

(** [step] counts from 0: even steps extend the bottom, odd steps the top *)
Fixpoint out_loop_asym (c : cons) (ss : list Z) (k step : nat) (top bottom : list Z) (ind2 : list nat) (q : list Z)
  : result (list Z * list Z * list nat * list Z * bool) :=
  match k with
  | O => Ok (top, bottom, ind2, q, true)
  | S k =>
    if Nat.even step then
      do o <- pick ss (acc_bottom c bottom) (fun q => order_plies_to_test (hd 0 bottom) q c) ind2 q;
      match o with
      | Some (a, i, q') => out_loop_asym c ss k (S step) top (a :: bottom) (drop i ind2) q'
      | None => Ok (top, bottom, ind2, q, false)
      end
    else
      do o <- pick ss (acc_top c top) (fun q => order_plies_to_test (last top 0) q c) ind2 q;
      match o with
      | Some (a, i, q') => out_loop_asym c ss k (S step) (top ++ [a]) bottom (drop i ind2) q'
      | None => Ok (top, bottom, ind2, q, false)
      end
  end.

(** lines 189-190: the slices of both stacks use the size of the bottom stack *)
Definition out_window_asym (top bottom grp : list Z) : list Z :=
  skipn (length bottom - length grp - 1) top ++ grp ++ firstn (Nat.min (length bottom) (length grp + 1)) bottom.

(** repair_diso_contig_tools.py 118-154: all plies but the outer ones, from the outside in,
    alternately from the bottom and from the top *)
Definition indices_out (d n : nat) : list nat :=
  interleave (rev (seq (n / 2) (n - n / 2 - (d - 1)))) (seq (d - 1) (n / 2 - (d - 1))).

Definition outside_asym (c : cons) (n_D1 : nat) (ss q : list Z) : result (list Z * bool * list Z) :=
  let n := length ss in let d := n_outer_out c in
  if Nat.ltb n d then Err IndexError else
  let indices := indices_out d n in
  do o <- out_loop_asym c ss (length indices - n_D1 - 2) 0 (firstn d ss) (lastn d ss) (skipn 2 indices) q;
  let '(top, bottom, ind2, q, done) := o in
  do r <- rest ss ind2 q;
  let (rem, q) := r in
  if negb done then Ok (top ++ rem ++ bottom, false, q)
  else if Nat.ltb (length bottom + length top) (n - n_D1) then Err (Raised Other)
  else
    do good <- filterR (fun p => group_ok c (out_window_asym top bottom (arranged rem p))) (permutations (length ind2));
    match smallest_row good with
    | None => Ok (top ++ rem ++ bottom, false, q)
    | Some p =>
      let s := top ++ arranged rem p ++ bottom in
      if negb (Nat.eqb (length s) n) then Err (Raised Other) else Ok (s, true, q)
    end.

(* ------------------------------------------------------------------ *)
(** repair_from_inside_asym.py 26-236 *)
(** even steps extend the stack upwards (at its front), odd steps downwards *)
Fixpoint in_loop_asym (c : cons) (ss : list Z) (k step : nat) (stack : list Z) (ind2 : list nat) (q : list Z)
  : result (list Z * list nat * list Z * bool * nat) :=
  match k with
  | O => Ok (stack, ind2, q, true, step)
  | S k =>
    if Nat.even step then
      do o <- pick ss (acc_bottom c stack) (fun q => order_plies_to_test (hd 0 stack) q c) ind2 q;
      match o with
      | Some (a, i, q') => in_loop_asym c ss k (S step) (a :: stack) (drop i ind2) q'
      | None => Ok (stack, ind2, q, false, S step)
      end
    else
      do o <- pick ss (acc_top c stack) (fun q => order_plies_to_test (last stack 0) q c) ind2 q;
      match o with
      | Some (a, i, q') => in_loop_asym c ss k (S step) (stack ++ [a]) (drop i ind2) q'
      | None => Ok (stack, ind2, q, false, S step)
      end
  end.

(** lines 133-144 and 213-224 *)
Fixpoint place_alt (step : nat) (plies stack : list Z) : list Z :=
  match plies with
  | [] => stack
  | x :: t => place_alt (S step) t (if Nat.even step then x :: stack else stack ++ [x])
  end.

(** repair_diso_contig_tools.py 222-239: from the centre out *)
Definition indices_in (d n : nat) : list nat :=
  let m := (n - 2 * d)%nat in interleave (seq (d + m / 2) (m - m / 2)) (rev (seq d (m / 2))).

Fixpoint insert_nat (x : nat) (l : list nat) : list nat :=
  match l with [] => [x] | y :: t => if Nat.leb x y then x :: l else y :: insert_nat x t end.
Definition sort_nat (l : list nat) : list nat := fold_right insert_nat [] l.

(** lines 180-207 *)
Definition in_test_asym (c : cons) (top bottom stack grp : list Z) : result bool :=
  let r := length grp in
  let st := (if dam_tol c then [last top 0] else []) ++ firstn (r / 2) grp ++ stack ++ skipn (r / 2) grp ++
            (if dam_tol c then [hd 0 bottom] else []) in
  do b <- group_ok c (firstn (3 + r + n_contig c) st);
  if negb b then Ok false
  else if Nat.ltb (4 + r + n_contig c) (length st)
       then group_ok c (skipn (length st - 4 - r - n_contig c) st) else Ok true.

Definition inside_asym (c : cons) (n_D1 : nat) (ss q : list Z) : result (list Z * bool * list Z) :=
  let n := length ss in let d := n_outer_in c in
  let indices := indices_in d n in
  if (Nat.ltb n d || Nat.eqb (length indices) 0)%bool then Err IndexError else
  let top := firstn d ss in let bottom := lastn d ss in
  do o <- in_loop_asym c ss (length indices - n_D1 - 1) 0 [nth (hd 0%nat indices) ss 0] (skipn 1 indices) q;
  let '(stack, ind2, q, done, step) := o in
  if negb done then
    do r <- rest ss ind2 q;
    let s := top ++ place_alt step (fst r) stack ++ bottom in
    if negb (Nat.eqb (length s) n) then Err (Raised Other) else Ok (s, false, snd r)
  else if Nat.ltb (length bottom + length top + length stack) (n - n_D1) then Err (Raised Other)
  else
    do r <- rest ss (sort_nat ind2) q;
    let (rem, q2) := r in
    do good <- filterR (fun p => in_test_asym c top bottom stack (arranged rem p)) (permutations (length ind2));
    match smallest_row good with
    | None =>
      do r <- rest ss ind2 q;
      let s := top ++ place_alt step (fst r) stack ++ bottom in
      if negb (Nat.eqb (length s) n) then Err (Raised Other) else Ok (s, false, q2)
    | Some p =>
      let g := arranged rem p in
      let s := top ++ firstn (length g / 2) g ++ stack ++ skipn (length g / 2) g ++ bottom in
      if negb (Nat.eqb (length s) n) then Err (Raised Other) else Ok (s, true, q2)
    end.

(* ------------------------------------------------------------------ *)
(** repair_diso_contig.py 51-88: laminate, completed_inward, completed_outward, queue *)
Definition repair_diso_contig (c : cons) (n_D1 : nat) (ss q : list Z) : result (list Z * bool * bool * list Z) :=
  do o <- (if sym c then outside_sym c n_D1 ss q else outside_asym c n_D1 ss q);
  let '(s, inward, q) := o in
  if inward then Ok (s, true, true, q)
  else do o <- (if sym c then inside_sym c n_D1 s q else inside_asym c n_D1 s q);
       let '(s, outward, q) := o in Ok (s, false, outward, q).

(** lines 29-48: the list of laminates and queues; laminate, inward, outward, index *)
Fixpoint repair_list_loop (c : cons) (n_D1 : nat) (l : list (list Z * list Z)) (ind : nat) (ss0 : option (list Z))
  : result (list Z * bool * bool * nat) :=
  match l with
  | [] => match ss0 with Some s => Ok (s, false, false, 0%nat) | None => Err Unbound end
  | (ss, q) :: t =>
    do o <- repair_diso_contig c n_D1 ss q;
    let '(s, inward, outward, _) := o in
    if (inward || outward)%bool then Ok (s, inward, outward, ind)
    else repair_list_loop c n_D1 t (S ind) (if Nat.eqb ind 0 then Some s else ss0)
  end.
Definition repair_diso_contig_list (c : cons) (n_D1 : nat) (l : list (list Z * list Z)) :=
  repair_list_loop c n_D1 l 0 None.
