(* Format.v - model of src/BELLA/format_pdl.py: stacking sequence tables and ply
   positions. A table (np.array of shape (n_panels, n_columns)) is the list of its
   rows; -1 marks a dropped ply. Definitions only. *)
From Verif Require Import Base Divers Spacing Strip.

Definition kept (x : Z) : bool := negb (x =? -1).

(* ------------------------------------------------------------------ *)
(** * format_pdl.py:45-79 pos_in_ss_ref_to_pos_in_sst *)

(** lines 62-72: the loop over the columns; [pos] is pos_ref[counter_pos:] (never
    empty in the loop), [ind] is ind_pdl_ply *)
Fixpoint ref_scan (pdl : list Z) (ind counter : Z) (pos : list Z) : list Z :=
  match pdl with
  | [] => []
  | x :: t =>
    if kept x then
      let counter := counter + 1 in
      match pos with
      | [] => []
      | p :: ps =>
        if counter =? p then
          (ind + 1) :: match ps with [] => [] | _ => ref_scan t (ind + 1) counter ps end
        else ref_scan t (ind + 1) counter pos
      end
    else ref_scan t (ind + 1) counter pos
  end.

(** line 58: np.argsort, as a stable sort of (value, index) pairs (numpy may order
    equal values differently; positions are distinct where it matters) *)
Fixpoint ainsert (k : Z * nat) (l : list (Z * nat)) : list (Z * nat) :=
  match l with
  | [] => [k]
  | h :: t => if fst k <=? fst h then k :: h :: t else h :: ainsert k t
  end.
Fixpoint asort (l : list (Z * nat)) : list (Z * nat) :=
  match l with [] => [] | a :: t => ainsert a (asort t) end.
Definition argsorted (l : list Z) : list (Z * nat) := asort (combine l (seq 0 (length l))).

(** np.where(l == a)[0][0] *)
Fixpoint where_first (a : nat) (l : list nat) : result nat :=
  match l with
  | [] => Err IndexError
  | b :: t => if Nat.eqb b a then Ok 0%nat else do r <- where_first a t; Ok (S r)
  end.

Definition pos_in_ss_ref_to_pos_in_sst (pos_ref pdl_ref : list Z) : result (list Z) :=
  match pos_ref with
  | [] => Ok []
  | _ =>
    let s := argsorted pos_ref in
    let pos_sst := ref_scan pdl_ref 0 0 (map fst s) in
    do reorder <- mapR (fun i => where_first i (map snd s)) (seq 0 (length pos_sst));
    mapR (row pos_sst) reorder
  end.

(* ------------------------------------------------------------------ *)
(** * format_pdl.py:82-114 pos_in_sst_to_pos_in_panel *)

(** [k] iterations left; [pos] is pos_sst[counter_pos_sst:], [pdl] is pdl_panel[ind:] *)
Fixpoint panel_scan (k : nat) (ind : Z) (pdl pos : list Z) (cnt : Z) : result (list Z) :=
  match k with
  | O => Ok []
  | S k' =>
    match pos, pdl with
    | p :: ps, x :: t =>
      if p =? ind + 1 then
        if kept x then do r <- panel_scan k' (ind + 1) t ps (cnt + 1); Ok (cnt + 1 :: r)
        else panel_scan k' (ind + 1) t ps cnt
      else panel_scan k' (ind + 1) t pos (if kept x then cnt + 1 else cnt)
    | _, _ => Err IndexError
    end
  end.

Definition pos_in_sst_to_pos_in_panel (pos_sst pdl : list Z) : result (list Z) :=
  match pos_sst with
  | [] => Ok []
  | _ => panel_scan (Z.to_nat (last pos_sst 0)) 0 pdl pos_sst 0
  end.

(* ------------------------------------------------------------------ *)
(** * format_pdl.py:117-144 pos_in_sst_to_pos_in_panel_2 *)
(** l[:p] *)
Definition py_prefix {A} (l : list A) (p : Z) : list A :=
  if 0 <=? p then firstn (Z.to_nat p) l else firstn (Z.to_nat (zlen l + p)) l.
Definition absent : Z := 10000000000.
Definition pos_in_sst_to_pos_in_panel_2 (pos_sst pdl : list Z) : result (list Z) :=
  mapR (fun p =>
    do x <- get pdl (p - 1);
    Ok (if kept x then Z.of_nat (countb kept (py_prefix pdl p)) else absent)) pos_sst.

(* ------------------------------------------------------------------ *)
(** * format_pdl.py:146-157 convert_sst_to_ss *)
Definition convert_sst_to_ss (tab : list (list Z)) : list (list Z) := map (filter kept) tab.

(* ------------------------------------------------------------------ *)
(** * format_pdl.py:160-170 convert_ss_guide_to_sst *)

(** one column: sst[elem][ind] = v for the rows elem with pdl[elem, ind] != -1 *)
Definition set_column (ind : nat) (v : Z) (sst pdl : list (list Z)) : list (list Z) :=
  map (fun sp => if kept (nth ind (snd sp) (-1)) then upd ind v (fst sp) else fst sp)
      (combine sst pdl).

(** [todo] is ss_guide[ind:]; [width] is pdl.shape[1] *)
Fixpoint guide_loop (width ind : nat) (todo : list Z) (pdl sst : list (list Z)) : result (list (list Z)) :=
  match todo with
  | [] => Ok sst
  | v :: t =>
    if Nat.ltb ind width then guide_loop width (S ind) t pdl (set_column ind v sst pdl)
    else Err IndexError
  end.

Definition width (pdl : list (list Z)) : nat := length (nth 0 pdl []).
Definition blank (pdl : list (list Z)) : list (list Z) := map (map (fun _ => -1)) pdl.
Definition convert_ss_guide_to_sst (guide : list Z) (pdl : list (list Z)) : result (list (list Z)) :=
  guide_loop (width pdl) 0 guide pdl (blank pdl).

(** format_pdl.py:192-197 convert_ss_to_sst: the guide is the last panel *)
Definition convert_ss_to_sst (ss pdl : list (list Z)) : result (list (list Z)) :=
  do g <- get ss (-1); convert_ss_guide_to_sst g pdl.

(* ------------------------------------------------------------------ *)
(** * format_pdl.py:172-189 convert_ss_ref_to_reduced_sst *)
(** [n] columns left from column [col]; [k] is ind_in_ss_ref *)
Fixpoint ref_columns (n col k : nat) (ss_ref : list Z) (ind_ref : nat) (sst : list (list Z))
  : result (list (list Z)) :=
  match n with
  | O => Ok sst
  | S n' =>
    do r <- row sst ind_ref;
    if kept (nth col r (-1)) then
      do v <- row ss_ref k;
      ref_columns n' (S col) (S k) ss_ref ind_ref
        (map (fun r => if kept (nth col r (-1)) then upd col v r else r) sst)
    else ref_columns n' (S col) k ss_ref ind_ref sst
  end.

Definition convert_ss_ref_to_reduced_sst (ss_ref : list Z) (ind_ref : nat)
  (reduced_pdl ss_before : list (list Z)) : result (list (list Z)) :=
  do sst <- convert_ss_to_sst ss_before reduced_pdl;
  ref_columns (width reduced_pdl) 0 0 ss_ref ind_ref sst.
