(* GroupFilters.v - model of the row filters of src/guidelines: internal_contig.py
   (internal_contig), internal_diso_contig.py (internal_diso_contig), external_contig.py and
   external_diso_contig.py. A matrix of stacking sequences is the list of its rows, all of the
   same width. Definitions only. *)
From Verif Require Import Base Constraints Guidelines.
Local Open Scope Z_scope.

Definition rows := list (list Z).

(** "for ii in range(a)[::-1]: if <test on angle[ii]>: angle = np.delete(angle, ii)": the
    rows from [k] - 1 down to 0; the second matrix loses the same rows when [step] holds *)
Fixpoint sweep (bad : list Z -> bool) (in_step : bool) (k : nat) (a : rows) (a2 : option rows) : rows * option rows :=
  match k with
  | O => (a, a2)
  | S k' =>
    if bad (nth k' a []) then
      sweep bad in_step k' (del k' a) (if in_step then option_map (del k') a2 else a2)
    else sweep bad in_step k' a a2
  end.
Definition sweep_all (bad : list Z -> bool) (in_step : bool) (p : rows * option rows) : rows * option rows :=
  sweep bad in_step (length (fst p)) (fst p) (snd p).

Definition has_second (p : rows * option rows) : bool := match snd p with Some _ => true | None => false end.

(** internal_contig.py:90-251, internal_diso_contig.py:71-187: the contiguity part; [w] is
    angle.shape[1]. The windows are compared as in is_contig when a second matrix is given
    (lines 100-171) and with the first ply otherwise (lines 179-247) *)
Definition contig_bad (second : bool) (n w : nat) (r : list Z) : bool :=
  existsb (fun jj => (if second then contig_window n else contig_window2 n) (fun k => nth (jj + k) r 0)) (seq 0 (w - n)).
Definition internal_contig_part (c : cons) (w : nat) (p : rows * option rows) : result (rows * option rows) :=
  if contig c then
    if Nat.ltb (n_contig c) w then
      if (Nat.leb 2 (n_contig c) && Nat.leb (n_contig c) 6)%bool
      then Ok (sweep_all (contig_bad (has_second p) (n_contig c) w) true p)
      else Err (Raised NotCoded)
    else Ok p
  else Ok p.

(** internal_contig.py:75-253 *)
Definition internal_contig (c : cons) (w : nat) (a : rows) (a2 : option rows) : result (rows * option rows) :=
  internal_contig_part c w (a, a2).

(** internal_diso_contig.py:36-69: the while loop over jj stops at the first bad pair *)
Definition diso_bad (delta : Z) (w : nat) (r : list Z) : bool :=
  existsb (fun jj => negb (is_diso (nth (jj + 1) r 0) (nth jj r 0) delta)) (seq 0 (w - 1)).

(** internal_diso_contig.py:12-189 *)
Definition internal_diso_contig (c : cons) (w : nat) (a : rows) (a2 : option rows) : result (rows * option rows) :=
  let p := if diso c then sweep_all (diso_bad (delta_angle c) w) true (a, a2) else (a, a2) in
  internal_contig_part c w p.

(** ss_before[-i], in range where it is used *)
Definition from_end (b : list Z) (i : nat) : Z := nth (length b - i) b 0.

(** one block "if ss_beforeLength >= k" of external_contig.py:47-363 for the limit [n]:
    the first n+1-k plies of the row and the last k plies before are equal. The code compares
    some of these plies with another one of the same block than the last ply before (for
    example lines 313-318); the conjunction is the same. *)
Definition ext_window (n k : nat) (b r : list Z) : bool :=
  (forallb (fun i => nth i r 0 =? from_end b 1) (seq 0 (n + 1 - k)) &&
   forallb (fun i => from_end b i =? from_end b 1) (seq 2 (k - 1)))%bool.

(** the blocks k = 1 .. 6, each deleting rows; nothing is done for k > n, and the block is
    skipped unless n_plies_group > n - k (for k = n the code has no such test: n_plies_group
    is positive). [k] counts up, [j] blocks are left *)
Fixpoint ext_blocks (in_step : bool) (n g : nat) (b : list Z) (k j : nat) (p : rows * option rows) : rows * option rows :=
  match j with
  | O => p
  | S j' =>
    let p := if (Nat.leb k (length b) && Nat.leb k n && (Nat.eqb k n || Nat.ltb (n - k) g))%bool
             then sweep_all (ext_window n k b) in_step p else p in
    ext_blocks in_step n g b (S k) j' p
  end.

Definition ext_contig_part (in_step : bool) (c : cons) (g : nat) (b : list Z) (p : rows * option rows) : result (rows * option rows) :=
  if contig c then
    match b with
    | [] => Ok p
    | _ => if (Nat.leb 2 (n_contig c) && Nat.leb (n_contig c) 6)%bool
           then Ok (ext_blocks in_step (n_contig c) g b 1 6 p)
           else Err (Raised NotCoded)
    end
  else Ok p.

(** external_contig.py:12-714; the second matrix is returned as it was given (the code never
    deletes its rows) *)
Definition external_contig (c : cons) (g w : nat) (b : list Z) (a : rows) (a2 : option rows) : result (rows * option rows) :=
  do _ <- guard (Nat.ltb w g) (Raised SizeMismatch);
  ext_contig_part false c g b (a, a2).

(** external_diso_contig.py:46-58 *)
Definition joint_bad (delta : Z) (b r : list Z) : bool := negb (is_diso (nth 0 r 0) (from_end b 1) delta).

(** external_diso_contig.py:11-705 *)
Definition external_diso_contig (c : cons) (g w : nat) (b : list Z) (a : rows) (a2 : option rows) : result (rows * option rows) :=
  do _ <- guard (Nat.ltb w g) (Raised SizeMismatch);
  let p := if diso c then match b with [] => (a, a2) | _ => sweep_all (joint_bad (delta_angle c) b) true (a, a2) end else (a, a2) in
  ext_contig_part true c g b p.
