(* Counters.v - the violation counters that are updated ply by ply during a beam
   search over several panels: disorientation.py 44-61 and 102-171,
   contiguity.py 55-73 and 129-239.
   Simplification: arrays are lists; [mother_ss_top=None] is the empty list (the
   code subscripts None then, a TypeError, where the model has an IndexError).
   Counters are unbounded integers. *)
From Verif Require Import Base Constraints Guidelines Divers.
Local Open Scope Z_scope.

(** numpy [n_viola[ind] += k] *)
Definition bump (ind : nat) (k : Z) (n : list Z) : result (list Z) :=
  do x <- get n (Z.of_nat ind); Ok (upd ind (x + k) n).

(** [for ind_panel in range(n_panels)] threading a state *)
Fixpoint each {S} (f : nat -> S -> result S) (inds : list nat) (st : S) : result S :=
  match inds with
  | [] => Ok st
  | i :: t => do st' <- f i st; each f t st'
  end.

(** pdl[ind_panel, level] *)
Definition drop_at (pdl : list (list Z)) (ind level : nat) : result Z :=
  do row <- get pdl (Z.of_nat ind); get row (Z.of_nat level).

(** disorientation.py 44-61: np.sum(..., axis=1) of the default empty vector is an
    AxisError (ValueError); [viola = None] is that default *)
Definition calc_penalty_diso (n : nat) (viola : option (list (list Z))) (diso : bool)
  (coeff norm : Q) : result (list Q) :=
  if diso then
    match viola with
    | None => Err ValueError
    | Some m => Ok (map (fun row => coeff * inject_Z (sumZ row) / norm)%Q m)
    end
  else Ok (repeat 0%Q n).

(** contiguity.py 55-73 *)
Definition penalty_contig (n : nat) (viola : option (list (list Z))) (contig : bool)
  (coeff norm : Q) : result (list Q) :=
  if contig then
    match viola with
    | None => Err ValueError
    | Some m => Ok (map (fun row => coeff * inject_Z (sumZ row) / norm)%Q m)
    end
  else Ok (repeat 0%Q n).

(** disorientation.py 127-147: the junction of both halves, asymmetric laminate *)
Definition diso_junction (bot : list (list Z)) (child : list Z) (level : nat)
  (pdl : list (list Z)) (c : cons) (top : list (list Z)) (ind : nat) (n : list Z)
  : result (list Z) :=
  do d <- drop_at pdl ind level;
  do ok <-
    (if 0 <=? d then
       if Nat.even level then
         do a <- get child 0; do t <- get top (Z.of_nat ind); do b <- get t 0;
         Ok (is_diso a b (delta_angle c))
       else
         do a <- get child 0; do t <- get bot (Z.of_nat ind); do b <- get t (-1);
         Ok (is_diso a b (delta_angle c))
     else
       do s <- get bot (Z.of_nat ind); do a <- get s (-1);
       do t <- get top (Z.of_nat ind); do b <- get t 0;
       Ok (is_diso a b (delta_angle c)));
  if ok then Ok n else bump ind 1 n.

(** disorientation.py 150-161 *)
Definition diso_bottom (bot : list (list Z)) (child : list Z) (level : nat)
  (pdl : list (list Z)) (c : cons) (ind : nat) (n : list Z) : result (list Z) :=
  do d <- drop_at pdl ind level;
  if 0 <=? d then
    do s <- get bot (Z.of_nat ind);
    match s with
    | [] => Ok n
    | _ => do a <- get child 0; do b <- get s (-1);
           if is_diso a b (delta_angle c) then Ok n
           else bump ind (if sym c then 2 else 1) n
    end
  else Ok n.

(** disorientation.py 163-170 *)
Definition diso_top (top : list (list Z)) (child : list Z) (level : nat)
  (pdl : list (list Z)) (c : cons) (ind : nat) (n : list Z) : result (list Z) :=
  do d <- drop_at pdl ind level;
  if 0 <=? d then
    do s <- get top (Z.of_nat ind);
    match s with
    | [] => Ok n
    | _ => do a <- get child 0; do b <- get s 0;
           if is_diso a b (delta_angle c) then Ok n else bump ind 1 n
    end
  else Ok n.

(** disorientation.py 102-171 ([n_plies] is not used by the code) *)
Definition calc_n_viola_diso (mother : list Z) (bot : list (list Z)) (child : list Z)
  (level n_panels : nat) (pdl : list (list Z)) (c : cons) (top : list (list Z))
  (last_level : bool) : result (list Z) :=
  do n1 <- (if negb (sym c) && last_level
            then each (diso_junction bot child level pdl c top) (seq 0 n_panels) mother
            else Ok mother);
  if sym c || Nat.even level
  then each (diso_bottom bot child level pdl c) (seq 0 n_panels) n1
  else each (diso_top top child level pdl c) (seq 0 n_panels) n1.

(** the argument child_ss of calc_n_viola_contig is indexed in one place and wrapped
    in a list in another: a one-dimensional array or a bare number *)
Inductive child_arg := Arr (l : list Z) | Num (a : Z).

(** child_ss[0]; a number cannot be subscripted (TypeError) *)
Definition child_first (x : child_arg) : result Z :=
  match x with Arr l => get l 0 | Num _ => Err TypeError end.

(** np.array([child_ss]) inside an np.hstack with one-dimensional arrays: for an array
    it is two-dimensional, so that np.hstack is a ValueError *)
Definition child_wrapped (x : child_arg) : result (list Z) :=
  match x with Arr _ => Err ValueError | Num a => Ok [a] end.

(** stack[-n:]; for n = 0 it is the whole stack *)
Definition tail_of (n : nat) (s : list Z) : list Z :=
  match n with O => s | _ => lastn n s end.

(** n_viola_contig[ind] += np.sum(calc_contig_vector(stack)) *)
Definition add_vector (ind : nat) (stack : list Z) (c : cons) (n : list Z)
  : result (list Z) :=
  do v <- calc_contig_vector stack (n_contig c); bump ind (sumZ v) n.

(** contiguity.py 156-170 *)
Definition contig_junction (bot : list (list Z)) (child : child_arg) (level : nat)
  (pdl : list (list Z)) (c : cons) (top : list (list Z)) (ind : nat) (n : list Z)
  : result (list Z) :=
  do d <- drop_at pdl ind level;
  do s <- get bot (Z.of_nat ind);
  do x <- (if 0 <=? d then do a <- child_first child; Ok [a] else Ok []);
  do t <- get top (Z.of_nat ind);
  add_vector ind (tail_of (n_contig c) s ++ x ++ firstn (n_contig c) t) c n.

(** contiguity.py 175-190 ([copies] = 1) and 193-210 ([copies] = 2) *)
Definition contig_mirror (copies : nat) (bot : list (list Z)) (child : child_arg)
  (level : nat) (pdl : list (list Z)) (c : cons) (ind : nat) (n : list Z)
  : result (list Z) :=
  do d <- drop_at pdl ind level;
  do s <- get bot (Z.of_nat ind);
  do x <- (if 0 <=? d then do x <- child_wrapped child; Ok (concat (repeat x copies))
           else Ok []);
  add_vector ind (tail_of (n_contig c) s ++ x ++ rev (tail_of (n_contig c) s)) c n.

(** contiguity.py 212-226: the state also holds the variable new_stack, unassigned at
    first and kept from one panel to the next *)
Definition contig_bottom (bot : list (list Z)) (child : child_arg) (level : nat)
  (pdl : list (list Z)) (c : cons) (ind : nat) (st : list Z * option (list Z))
  : result (list Z * option (list Z)) :=
  let (n, stack) := st in
  do d <- drop_at pdl ind level;
  do s <- (if 0 <=? d then get bot (Z.of_nat ind) else Ok []);
  do st1 <-
    (if (0 <=? d) && negb (match s with [] => true | _ => false end) then
       do a <- child_first child;
       let ns := tail_of (n_contig c) s ++ [a] in
       do ok <- is_contig ns (n_contig c);
       do n1 <- (if ok then Ok n else bump ind (if sym c then 2 else 1) n);
       Ok (n1, Some ns)
     else Ok (n, stack));
  let (n1, stack1) := st1 in
  match stack1 with
  | None => Err Unbound
  | Some ns => do n2 <- add_vector ind ns c n1; Ok (n2, stack1)
  end.

(** contiguity.py 228-237 (the vector computed in line 235 is not used) *)
Definition contig_top (top : list (list Z)) (child : child_arg) (level : nat)
  (pdl : list (list Z)) (c : cons) (ind : nat) (n : list Z) : result (list Z) :=
  do d <- drop_at pdl ind level;
  if 0 <=? d then
    do s <- get top (Z.of_nat ind);
    match s with
    | [] => Ok n
    | _ => do a <- child_first child;
           let ns := a :: firstn (n_contig c) s in
           do _ <- calc_contig_vector ns (n_contig c);
           do ok <- is_contig ns (n_contig c);
           if ok then Ok n else bump ind 1 n
    end
  else Ok n.

(** contiguity.py 129-239 ([n_plies] is not used by the code) *)
Definition calc_n_viola_contig (mother : list Z) (bot : list (list Z))
  (child : child_arg) (n_panels : nat) (c : cons) (level : nat) (pdl : list (list Z))
  (top : list (list Z)) (last_level has_middle_ply : bool) : result (list Z) :=
  if negb (sym c) && last_level then
    each (contig_junction bot child level pdl c top) (seq 0 n_panels) mother
  else if sym c || Nat.even level then
    if sym c && last_level && has_middle_ply then
      each (contig_mirror 1 bot child level pdl c) (seq 0 n_panels) mother
    else if sym c && last_level && negb has_middle_ply then
      each (contig_mirror 2 bot child level pdl c) (seq 0 n_panels) mother
    else
      do st <- each (contig_bottom bot child level pdl c) (seq 0 n_panels) (mother, None);
      Ok (fst st)
  else each (contig_top top child level pdl c) (seq 0 n_panels) mother.
