(* Panel.v - model of src/BELLA/panels.py (class Panel), of its two lamination-parameter
   filters, and of MultiPanel.filter_* (src/BELLA/multipanels.py 75-94). Floats are exact
   rationals; NaN is None. Definitions only. *)
From Verif Require Import Base Constraints.
Local Open Scope Z_scope.

(** panels.py:17-31, the arguments that carry logic. The isinstance tests are left out: the
    arguments have the types of the documentation; [a_lw] may have any size *)
Record pargs := { a_n : Z; a_target : list Q; a_lw : list Q; a_area : Q; a_lx : Q; a_ly : Q; a_weighting : Q }.

Record panel := { n_plies : Z; middle_ply_index : Z; has_middle_ply : bool;
                  target : list Q; lw_ini : list Q; area : Q; weighting : Q }.

(** panels.py:215-240 set_n_plies: (has_middle_ply, middle_ply_index); int((n + 1)/2) is exact
    for an odd n *)
Definition set_n_plies (n : Z) (sy : bool) : result (bool * Z) :=
  do _ <- guard (n <? 1) (Raised BadPanel);
  if (sy && (n mod 2 =? 1))%bool then Ok (true, (n + 1) / 2) else Ok (false, 0).

(** panels.py:48-118 Panel.__init__. The test of line 108 on the weightings can only fail for an
    object that is not an array, so the size is never tested *)
Definition mk_panel (c : cons) (a : pargs) : result panel :=
  do m <- set_n_plies (a_n a) (sym c);
  do _ <- guard (Qltb (a_area a) 0) (Raised BadPanel);
  do _ <- guard (Qltb (a_lx a) 0) (Raised BadPanel);
  do _ <- guard (Qltb (a_ly a) 0) (Raised BadPanel);
  let ar := if (negb (Qeq_bool (a_lx a) 0) && negb (Qeq_bool (a_ly a) 0))%bool then (a_lx a * a_ly a)%Q else a_area a in
  do _ <- guard (Qltb (a_weighting a) 0) (Raised BadPanel);
  do _ <- guard (existsb (fun x => Qltb x 0) (a_lw a)) (Raised BadPanel);
  Ok {| n_plies := a_n a; middle_ply_index := snd m; has_middle_ply := fst m; target := a_target a;
        lw_ini := a_lw a; area := ar; weighting := a_weighting a |}.

(** l[a:b] = 0 *)
Definition zero_slice (a b : nat) (l : list Q) : list Q :=
  firstn a l ++ map (fun _ => 0%Q) (slice a b l) ++ skipn (Nat.max a b) l.
(** l[i] = v *)
Definition set_at (i : nat) (v : Q) (l : list Q) : result (list Q) :=
  if (i <? length l)%nat then Ok (upd i v l) else Err IndexError.

(** panels.py:120-139 filter_target_lampams, on the array of one panel *)
Definition filter_target (c : cons) (t : list Q) : result (list Q) :=
  let t := if sym c then zero_slice 4 8 (zero_slice 4 8 t) else t in
  do t <- (if bal c then do t <- set_at 2 0 t; set_at 3 0 t else Ok t);
  if oopo c then do t <- set_at 10 0 t; set_at 11 0 t else Ok t.

(** multipanels.py:75-81: the arrays are changed in place, and several panels can hold the same
    array (the default argument of panels.py:21 is one array for all panels). [heap] are the
    arrays, [refs] the array held by each panel in order *)
Fixpoint filter_targets (c : cons) (refs : list nat) (heap : list (list Q)) : result (list (list Q)) :=
  match refs with
  | [] => Ok heap
  | r :: rest =>
    match nth_error heap r with
    | None => Err Unbound
    | Some t => do t' <- filter_target c t; filter_targets c rest (upd r t' heap)
    end
  end.

(** panels.py:157,172: set(constraints.set_of_angles) == set([0, 45, -45, 90]) *)
Definition only_standard (set : list Z) : bool :=
  (forallb (fun a => memb a [0; 45; -45; 90]) set && forallb (fun a => memb a set) [0; 45; -45; 90])%bool.

(** l[l != 0] *)
Definition non_zero (l : list Q) : list Q := filter (fun x => negb (Qeq_bool x 0)) l.
(** np.average; NaN on an empty array *)
Definition average (l : list Q) : option Q :=
  match l with [] => None | _ => Some (sumQ l / inject_Z (zlen l))%Q end.

(** panels.py:141-167: the weightings after the factors of the guidelines are cleared *)
Definition clear_weightings (c : cons) (w : list Q) : result (list Q) :=
  let w := if sym c then zero_slice 4 8 w else w in
  do w <- (if only_standard (set_of_angles c) then do w <- set_at 3 0 w; do w <- set_at 7 0 w; set_at 11 0 w else Ok w);
  do w <- (if bal c then do w <- set_at 2 0 w; set_at 3 0 w else Ok w);
  if oopo c then do w <- set_at 10 0 w; set_at 11 0 w else Ok w.

(** panels.py:141-213 filter_lampam_weightings. Ok None: all the weightings are NaN (average of an
    empty array, or 0/0) *)
Definition filter_weightings (c : cons) (coeff_oopo : Q) (w : list Q) : result (option (list Q)) :=
  do w <- clear_weightings c w;
  let mean := average (non_zero w) in
  if oopo c then
    match mean with
    | None => Ok None
    | Some m =>
      do w <- (if only_standard (set_of_angles c) then set_at 10 (m * coeff_oopo)%Q w
               else do w <- set_at 10 (m * coeff_oopo)%Q w; set_at 11 (m * coeff_oopo)%Q w);
      if Qeq_bool (sumQ w) 0 then Ok None else Ok (Some (map (fun x => x / sumQ w)%Q w))
    end
  else if Qeq_bool (sumQ w) 0 then Ok None else Ok (Some (map (fun x => x / sumQ w)%Q w)).

(** panels.py:242-246 calc_weight *)
Definition calc_weight_panel (density : Q) (p : panel) : Q := (density * area p * inject_Z (n_plies p))%Q.
