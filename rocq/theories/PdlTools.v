(* PdlTools.v - model of src/BELLA/pdl_tools.py: formatting, filtering and assembling
   ply-drop layouts. A matrix is the list of its rows. Definitions only. *)
From Verif Require Import Base Divers Spacing Strip Format.
Local Open Scope Z_scope.

(* ------------------------------------------------------------------ *)
(** * pdl_tools.py:107-122 format_ply_drops *)

(** l[i] = v with Python's negative indices *)
Definition py_set (l : list Z) (i v : Z) : result (list Z) :=
  if 0 <=? i then (if i <? zlen l then Ok (upd (Z.to_nat i) v l) else Err IndexError)
  else (if - zlen l <=? i then Ok (upd (Z.to_nat (zlen l + i)) v l) else Err IndexError).

(** lines 120-121, the inner loop on one line *)
Fixpoint drop_all (els line : list Z) : result (list Z) :=
  match els with
  | [] => Ok line
  | e :: t => do l <- py_set line e (-1); drop_all t l
  end.

(** np.arange(n) *)
Definition arange (n : nat) : list Z := map Z.of_nat (seq 0 n).

Definition format_ply_drops (my_list : list (list Z)) (n_max : nat) : result (list (list Z)) :=
  mapR (fun els => drop_all els (arange n_max)) my_list.

(* ------------------------------------------------------------------ *)
(** * pdl_tools.py:125-142 format_ply_drops2 *)

(** the inner loop: kept plies become k, k+1, ... *)
Fixpoint renumber (k : Z) (l : list Z) : list Z :=
  match l with
  | [] => []
  | x :: t => if kept x then k :: renumber (k + 1) t else x :: renumber k t
  end.
Definition format_ply_drops2 (ss : list (list Z)) : list (list Z) := map (renumber 0) ss.

(* ------------------------------------------------------------------ *)
(** * pdl_tools.py:51-104 ply_drops_rules *)

(** lines 87-97: both lines restricted to the plies covering one of the panels; the
    code raises (index error or boolean mask mismatch) when the sizes differ *)
Definition both_lines (l1 l2 : list Z) : result (list Z * list Z) :=
  if negb (Nat.eqb (length l1) (length l2)) then Err IndexError else
  let keep := filter (fun p => (0 <=? fst p) || negb (fst p =? snd p))%bool (combine l1 l2) in
  Ok (map fst keep, map snd keep).

(** lines 78-103: is the layout kept? the loop over the boundaries stops at the first
    violation *)
Fixpoint layout_ok (min_drop : Z) (before layout after : list (list Z)) (bs : list (nat * nat)) : result bool :=
  match bs with
  | [] => Ok true
  | (i1, i2) :: t =>
    do b1 <- row before i1; do l1 <- row layout i1; do a1 <- row after i1;
    do b2 <- row before i2; do l2 <- row layout i2; do a2 <- row after i2;
    do ls <- both_lines (b1 ++ l1 ++ a1) (b2 ++ l2 ++ a2);
    do p1 <- calc_penalty_spacing_1ss (fst ls) min_drop;
    do p2 <- calc_penalty_spacing_1ss (snd ls) min_drop;
    if Qle_bool (p1 + p2) 0 then layout_ok min_drop before layout after t else Ok false
  end.

Fixpoint filterR {A} (f : A -> result bool) (l : list A) : result (list A) :=
  match l with
  | [] => Ok []
  | a :: t => do b <- f a; do r <- filterR f t; Ok (if b then a :: r else r)
  end.

(** [n] is pdl.shape[1], the number of panels; before/after None become a column of ones *)
Definition ply_drops_rules (pdl : list (list (list Z))) (n : nat) (min_drop : Z)
  (boundaries : list (nat * nat)) (before after : option (list (list Z))) (pdl_spacing : bool)
  : result (list (list (list Z))) :=
  let ones := repeat [1] n in
  let before := match before with Some b => b | None => ones end in
  let after := match after with Some a => a | None => ones end in
  if pdl_spacing then filterR (fun l => layout_ok min_drop before l after boundaries) pdl
  else Ok pdl.

(* ------------------------------------------------------------------ *)
(** * pdl_tools.py:145-260 global_pdl_from_local_pdl *)

Definition local_pdls := list (option (list (list Z))).

(** lines 171-180, 204-213: -1 for dropped and 1 for the others *)
Definition mark (x : Z) : Z := if x =? -1 then -1 else 1.

(** lines 166-181: symmetric, one panel, before the mirroring *)
Fixpoint sym_marks (cum : local_pdls) (i : nat) : result (list Z) :=
  match cum with
  | [] => Ok []
  | None :: t => sym_marks t i
  | Some m :: t => do r <- row m i; do s <- sym_marks t i; Ok (map mark r ++ s)
  end.

(** lines 198-230: asymmetric, one panel; [k] is ind_local_pdl, [front] and [back] are
    pdl[ind_panel] and pdl_end[ind_panel] *)
Fixpoint asym_marks (k : nat) (cum : local_pdls) (after : option local_pdls) (i : nat)
  (front back : list Z) : result (list Z) :=
  match cum with
  | [] => Ok (front ++ back)
  | m :: t =>
    if Nat.even k then
      match m with
      | Some tab => do r <- row tab i; asym_marks (S k) t after i (front ++ map mark r) back
      | None => asym_marks (S k) t after i front back
      end
    else
      match after with
      | None | Some [] => asym_marks (S k) t after i front back
      | Some aft =>
        do e <- row aft k;
        match e with
        | Some tab => do r <- row tab i; asym_marks (S k) t after i front (map mark r ++ back)
        | None => asym_marks (S k) t after i front back
        end
      end
  end.

(** np.array(pdl).shape[1]; ragged rows do not form a matrix *)
Definition columns (pdl : list (list Z)) : result nat :=
  match pdl with
  | [] => Err IndexError
  | r :: t => if forallb (fun s => Nat.eqb (length s) (length r)) t then Ok (length r) else Err ValueError
  end.

(** line 247: pdl[:, (w + 1)//2:] = flip(pdl[:, :w//2]) on one row *)
Definition mirrored (r : list Z) : list Z :=
  firstn ((length r + 1) / 2) r ++ rev (firstn (length r / 2) r).

Record mp_dims := {
  d_panels : nat;       (* multipanel.reduced.n_panels *)
  d_max : nat;          (* multipanel.n_plies_max *)
  d_middle : bool       (* multipanel.has_middle_ply *) }.

Definition global_pdl_from_local_pdl (d : mp_dims) (sym : bool) (before : local_pdls)
  (after : option local_pdls) : result (list (list Z)) :=
  do pdl <-
    (if sym then
       do rows <- mapR (fun i => do r <- sym_marks before i; Ok (r ++ rev r)) (seq 0 (d_panels d));
       do w <- columns rows;
       if d_middle d then
         (if Nat.ltb (w / 2) w then Ok (map (del (w / 2)) rows) else Err IndexError)
       else Ok rows
     else mapR (fun i => asym_marks 0 before after i [] []) (seq 0 (d_panels d)));
  do w <- columns pdl;
  let pdl := map (renumber 1) pdl in
  let pdl := if sym then map mirrored pdl else pdl in
  do _ <- guard (negb (Nat.eqb w (d_max d)) && negb (Nat.eqb w (d_max d + 1)))%bool (Raised SizeMismatch);
  Ok pdl.

(* ------------------------------------------------------------------ *)
(** * pdl_tools.py:263-329 input_pdl_from_sst (the layout only) *)

(** np.matlib.repmat(row, n, 1) when the covering rule protects 1 or 2 plies *)
Definition covering_pdl (n_covering n : nat) : option (list (list Z)) :=
  match n_covering with
  | 1%nat => Some (repeat [0] n)
  | 2%nat => Some (repeat [0; 1] n)
  | _ => None
  end.
(** the number of outer columns cut off: any other value than 1 and 2 cuts nothing *)
Definition cut (n_covering : nat) : nat :=
  match n_covering with 1%nat => 1%nat | 2%nat => 2%nat | _ => 0%nat end.

(** [n] is multipanel.n_panels *)
Definition input_pdl_from_sst (sst : list (list Z)) (d : mp_dims) (n : nat) (sym : bool) (n_covering : nat)
  : result (list (list Z)) :=
  do w <- columns sst;
  let c := cut n_covering in
  if sym then
    let inner := map (fun r => renumber 0 (slice c (w / 2) r)) sst in
    global_pdl_from_local_pdl d true [covering_pdl n_covering n; Some inner] None
  else
    let inner := map (fun r => renumber 0 (slice c (w - c) r)) sst in
    global_pdl_from_local_pdl d false [covering_pdl n_covering n; None; Some inner]
      (Some [None; covering_pdl n_covering n; None]).
