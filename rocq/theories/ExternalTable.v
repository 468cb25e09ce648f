(* ExternalTable.v - model of the reading of somebody else's stacking sequence table:
   FXI-results/format_restults_FXI_SST_1.py:167-189 (format_restults_FXI_horseshoe.py:169-191 is
   the same code). Definitions only. *)
From Verif Require Import Base Divers Spacing Strip Guidelines Format.

(** lines 171-173: the size of line[line != -1] *)
Definition line_plies (l : list Z) : Z := Z.of_nat (length (filter kept l)).

(** a Python dictionary with integer keys: assignment and look-up *)
Fixpoint dput {A} (k : Z) (v : A) (d : list (Z * A)) : list (Z * A) :=
  match d with
  | [] => [(k, v)]
  | (k', v') :: t => if k' =? k then (k, v) :: t else (k', v') :: dput k v t
  end.
Fixpoint dget {A} (k : Z) (d : list (Z * A)) : result A :=
  match d with
  | [] => Err KeyError
  | (k', v) :: t => if k' =? k then Ok v else dget k t
  end.

(** lines 170-173: the dictionary from the number of plies to the line of the table; the lines
    are those of sst_all, the blank cells of the sheet already read as -1 (lines 167-168) *)
Definition lines_by_plies (lines : list (list Z)) : list (Z * list Z) :=
  fold_left (fun d l => dput (line_plies l) l d) lines [].

(** lines 175-179: one line for each panel, by the panel's number of plies *)
Definition lines_of_panels (counts : list Z) (lines : list (list Z)) : result (list (list Z)) :=
  mapM (fun n => dget n (lines_by_plies lines)) counts.

(** line 183: (sst[:, ind] == -1).all() *)
Definition empty_column (i : nat) (t : list (list Z)) : bool :=
  forallb (fun r => nth i r (-1) =? -1) t.

(** lines 182-184: the columns from the last to the first *)
Definition without_empty (w : nat) (t : list (list Z)) : list (list Z) :=
  fold_left (fun t i => if empty_column i t then map (del i) t else t) (rev (seq 0 w)) t.

(** lines 167-186: the table and the stacks of the panels; sst.shape[1] is an IndexError when
    there is no panel *)
Definition external_table (counts : list Z) (lines : list (list Z))
  : result (list (list Z) * list (list Z)) :=
  do t <- lines_of_panels counts lines;
  match t with
  | [] => Err IndexError
  | r :: _ =>
    let sst := without_empty (length r) t in
    Ok (sst, convert_sst_to_ss sst)
  end.
