(* Spacing.v - model of src/guidelines/ply_drop_spacing.py and of
   check_ply_drop_rules (src/guidelines/one_stack.py). Definitions only. *)
From Verif Require Import Base Divers.

(** position of the next dropped ply at or after [i]; [rest] is ss[i:].
    ply_drop_spacing.py:137-141 and 144-148, the two inner while loops *)
Fixpoint next_drop (rest : list Z) (i : nat) : nat :=
  match rest with
  | [] => i
  | x :: r => if x =? -1 then i else next_drop r (S i)
  end.

(** ply_drop_spacing.py:143-153, the outer while loop on index2 (fuel; the size of
    ss suffices, proved) *)
Fixpoint spacing_loop (fuel : nat) (ss : list Z) (min_drop : Z) (index1 index2 : nat)
         (penal : Z) : result Z :=
  match fuel with
  | O => Err OutOfFuel
  | S f =>
    if Nat.ltb index2 (length ss) then
      let index2 := next_drop (skipn index2 ss) index2 in
      let gap := Z.of_nat index2 - Z.of_nat index1 - 1 in
      let penal := if (Nat.ltb index2 (length ss) && (gap <? min_drop))%bool
                   then penal + (min_drop - gap) else penal in
      spacing_loop f ss min_drop index2 (S index2) penal
    else Ok penal
  end.

(** ply_drop_spacing.py:123-154 [calc_penalty_spacing_1ss] *)
Definition calc_penalty_spacing_1ss (ss : list Z) (min_drop : Z) : result Q :=
  let index1 := next_drop ss 0 in
  do penal <- spacing_loop (S (length ss)) ss min_drop index1 (S index1) 0;
  if Nat.eqb (length ss) 0 then Err ZeroDivision
  else Ok (inject_Z penal / inject_Z (zlen ss))%Q.

(** the parts of a blending strip used here: boundaries (index pairs) and the
    dictionary of boundary weights *)
Record strip := {
  s_boundaries : list (nat * nat);
  s_weights : list ((nat * nat) * Q) }.

Definition key_eqb (a b : nat * nat) : bool :=
  (Nat.eqb (fst a) (fst b) && Nat.eqb (snd a) (snd b))%bool.
(** dictionary lookup; KeyError when missing *)
Definition lookup (d : list ((nat * nat) * Q)) (k : nat * nat) : result Q :=
  match find (fun e => key_eqb (fst e) k) d with
  | Some e => Ok (snd e)
  | None => Err KeyError
  end.

Definition row {A} (t : list A) (i : nat) : result A :=
  match nth_error t i with Some x => Ok x | None => Err IndexError end.

(** ply_drop_spacing.py:71-77: the columns kept and the line on which the spacing is
    measured. The code needs both layouts to have the same size (IndexError
    otherwise; simplified: raised even when only layout2 is the longer one). *)
Definition boundary_line (layout1 layout2 : list Z) : result (list Z) :=
  if negb (Nat.eqb (length layout1) (length layout2)) then Err IndexError else
  let kept := filter (fun p => (negb (fst p =? -1) || negb (fst p =? snd p))%bool)
                     (combine layout1 layout2) in
  let line := map fst kept in
  Ok (if memb (-1) line then line else map snd kept).

(** ply_drop_spacing.py:54-84, one boundary; [pdl] rows are None when undefined;
    before/after are the tables of the neighbouring groups *)
Definition boundary_penalty (st : strip) (min_drop : Z) (before : list (list Z))
  (pdl : list (option (list Z))) (after : list (list Z)) (b : nat * nat) : result Q :=
  do r1 <- row pdl (fst b);
  do r2 <- row pdl (snd b);
  match r1, r2 with
  | Some l1, Some l2 =>
    if (Nat.eqb (length l1) 1 || Nat.eqb (length l2) 1)%bool then Ok 0%Q else
    do b1 <- row before (fst b);
    do a1 <- row after (fst b);
    do b2 <- row before (snd b);
    do a2 <- row after (snd b);
    do line <- boundary_line (b1 ++ l1 ++ a1) (b2 ++ l2 ++ a2);
    do w <- lookup (s_weights st) b;
    do p <- calc_penalty_spacing_1ss line min_drop;
    Ok (w * p)%Q
  | _, _ => Ok 0%Q
  end.

(** sum over the boundaries, ply_drop_spacing.py:52-84 *)
Fixpoint sum_boundaries (f : nat * nat -> result Q) (bs : list (nat * nat)) : result Q :=
  match bs with
  | [] => Ok 0%Q
  | b :: t => do p <- f b; do s <- sum_boundaries f t; Ok (p + s)%Q
  end.

(** ply_drop_spacing.py:20-100 [calc_penalty_spacing], on_blending_strip = True.
    [before]/[after] = None stands for a table of empty rows, one per row of pdl.
    [spacing] and [min_drop] are constraints.pdl_spacing and constraints.min_drop. *)
Definition calc_penalty_spacing (spacing : bool) (min_drop : Z) (st : strip)
  (before : option (list (list Z))) (pdl : list (option (list Z)))
  (after : option (list (list Z))) : result Q :=
  if negb spacing then Ok 0%Q else
  let empty := repeat (@nil Z) (length pdl) in
  let before := match before with Some t => t | None => empty end in
  let after := match after with Some t => t | None => empty end in
  sum_boundaries (boundary_penalty st min_drop before pdl after) (s_boundaries st).

(** ply_drop_spacing.py:86-100, on_blending_strip = False: [reduce] is the index list
    reduced.ind_for_reduc used by reduce_for_guide_based_blending
    (format_pdl.py:180-200): row i of the strip is row reduce[i] of the structure *)
Fixpoint reduce_rows {A} (reduce : list nat) (t : list A) : result (list A) :=
  match reduce with
  | [] => Ok []
  | i :: r => do x <- row t i; do s <- reduce_rows r t; Ok (x :: s)
  end.

(** one_stack.py:76-104 [check_ply_drop_rules] on a blending strip; the table is a
    rectangular array given by its rows *)
Definition has_drop_at (i : Z) (rows : list (list Z)) : result bool :=
  fold_right (fun r acc => do b <- acc; do x <- get r i; Ok ((x =? -1) || b)%bool)
             (Ok false) rows.

Definition check_ply_drop_rules (covering spacing : bool) (min_drop : Z) (st : strip)
  (rows : list (list Z)) : result unit :=
  do _ <- (if covering then
             do f <- has_drop_at 0 rows;
             do l <- has_drop_at (-1) rows;
             guard (f || l)%bool (Raised CoveringViolated)
           else Ok tt);
  if spacing then
    do p <- calc_penalty_spacing spacing min_drop st None (map Some rows) None;
    guard (negb (Qeq_bool p 0)) (Raised SpacingViolated)
  else Ok tt.
