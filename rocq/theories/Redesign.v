(* Redesign.v - model of src/RELAY/thick_to_thin.py, src/RELAY/thin_to_thick.py and
   src/guidelines/ply_drop_spacing.py:103-120: re-design of the ply-drop layout around the
   stacking sequence of the reference panel. Floats are exact rationals. calc_lampam of the
   missing package src/CLA and the distance of Abdalla are parameters. Definitions only. *)
From Verif Require Import Base Uniq Constraints Guidelines Divers Spacing Strip Format Search Objectives.
Local Open Scope Z_scope.

(** t[p] and t[p] = x on a list of rows that may be None *)
Definition py_index (n : nat) (p : Z) : result nat :=
  if ((0 <=? p) && (p <? Z.of_nat n))%bool then Ok (Z.to_nat p)
  else if ((- Z.of_nat n <=? p) && (p <? 0))%bool then Ok (Z.to_nat (Z.of_nat n + p))
  else Err IndexError.
Definition row_at {A} (t : list (option A)) (p : Z) : result A :=
  do i <- py_index (length t) p;
  match nth i t None with Some x => Ok x | None => Err TypeError end.
Definition set_row {A} (t : list (option A)) (p : Z) (x : A) : result (list (option A)) :=
  do i <- py_index (length t) p; Ok (upd i (Some x) t).
(** row[k] = -1 *)
Definition drop_at (k : nat) (row : list Z) : result (list Z) :=
  if Nat.ltb k (length row) then Ok (upd k (-1) row) else Err IndexError.

(* ------------------------------------------------------------------ *)
(** ** the beam search shared by both modules *)
(** the tables with one entry per candidate: those that follow the layouts, and those that
    are filled by the loop over the candidates *)
Record layout := { l_pdl : list (option (list Z)); l_used : list nat; l_last : nat; l_spacing : Q; l_queue : list Z }.
Record values_of := { v_counts : list (option (list Q)); v_lampam : list (option (list Q)); v_diso : list (option Q); v_objs : list (option Q); v_obj : Q }.
Definition node := (layout * values_of)%type.

(** thick_to_thin.py 253-264, 520-531 (thin_to_thick.py 304-315, 563-574): the indices of the
    smallest penalties, all ties at a time; those taken are overwritten with 1000 *)
Fixpoint ties (fuel limit : nat) (acc : list nat) (v : list Q) : result (list nat) :=
  match fuel with
  | O => Ok acc
  | S f =>
    if Nat.ltb (length acc) limit then
      do k <- argmin v;
      let m := nth k v 0%Q in
      ties f limit (acc ++ filter (fun i => Qeq_bool (nth i v 0%Q) m) (seq 0 (length v)))
           (map (fun x => if Qeq_bool x m then 1000%Q else x) v)
    else Ok acc
  end.
(** indices_to_keep.sort(); [t[index] for index in indices_to_keep] *)
Definition pick {A} (idxs : list nat) (l : list A) : list A :=
  flat_map (fun i => match nth_error l i with Some x => [x] | None => [] end) (rev (sort_desc idxs)).
Definition prune_ties {A} (limit : nat) (key : A -> Q) (l : list A) : result (list A) :=
  if Nat.ltb limit (length l) then do idxs <- ties limit limit [] (map key l); Ok (pick idxs l) else Ok l.
(** thick_to_thin.py 424-434, 575-589: one at a time, the first of the smallest *)
Definition best_indices (limit : nat) (objs : list Q) : result (list nat) :=
  do r <- mark argmin 1000%Q limit objs; Ok (fst r).
Definition prune_best {A} (limit : nat) (key : A -> Q) (l : list A) : result (list A) :=
  if Nat.ltb limit (length l) then do idxs <- best_indices limit (map key l); Ok (pick idxs l) else Ok l.

Section Search.
Variables (branch : nat -> step -> node -> result (list layout)) (evaluate : step -> node -> layout -> result (option values_of)).
Variables (same : layout -> layout -> bool) (local_limit global_limit : nat).

(** thick_to_thin.py 292-415, thin_to_thick.py 341-470: the candidates are visited from the
    last to the first; those that break a guideline are deleted from the tables of the
    layouts, the values of the others are appended to the tables of the values *)
Fixpoint visit (s : step) (m : node) (l : list layout) : result (list layout * list values_of) :=
  match l with
  | [] => Ok ([], [])
  | x :: t =>
    do o <- evaluate s m x;
    do r <- visit s m t;
    match o with None => Ok r | Some v => Ok (x :: fst r, v :: snd r) end
  end.
Definition survivors (s : step) (m : node) (l : list layout) : result (list layout * list values_of) :=
  do r <- visit s m (rev l); Ok (rev (fst r), snd r).

(** thick_to_thin.py 149-488: the candidates that replace a node *)
Definition expand_node (final : bool) (k : nat) (s : step) (m : node) : result (list node) :=
  do l0 <- branch k s m;
  do l1 <- prune_ties local_limit l_spacing l0;
  do r <- survivors s m l1;
  if final then Ok (List.combine (fst r) (snd r))
  else prune_best local_limit (fun x => v_obj (snd x)) (List.combine (fst r) (snd r)).
Fixpoint expand_all (final : bool) (k : nat) (s : step) (ms : list node) : result (list node) :=
  match ms with
  | [] => Ok []
  | m :: t => do a <- expand_node final k s m; do b <- expand_all final k s t; Ok (a ++ b)
  end.

(** thick_to_thin.py 490-515: a candidate goes when a later one has the same layout *)
Fixpoint dedupe (l : list node) : list node :=
  match l with
  | [] => []
  | x :: t => if existsb (fun y => same (fst x) (fst y)) t then dedupe t else x :: dedupe t
  end.

(** thick_to_thin.py 139-609; None when no candidate is left *)
Fixpoint search (k : nat) (ss : list step) (ms : list node) : result (option (list node)) :=
  match ss with
  | [] => Ok (match ms with [] => None | _ => Some ms end)
  | s :: rest =>
    match ms with
    | [] => Ok None
    | _ =>
      let final := match rest with [] => true | _ => false end in
      do l0 <- expand_all final k s ms;
      let l1 := dedupe l0 in
      do l2 <- (if final then Ok l1 else prune_ties global_limit (fun x => l_spacing (fst x)) l1);
      do l3 <- (if final then Ok l2 else prune_best global_limit (fun x => v_obj (snd x)) l2);
      search (S k) rest l3
    end
  end.
End Search.

(* ------------------------------------------------------------------ *)
Section Panels.
Variable c : cons.
Variable st : strip.
Variable lampam : list Z -> list Q.                  (* calc_lampam *)
Variable dist : list Q -> Q.                         (* calc_distance_Abdalla *)
Variables (targets weights : list (list Q)).         (* lampam_target, lampam_weightings of the panels *)
Variable panel_weightings : list Q.                  (* actual_panel_weightings *)
Variables (plies : list Z) (ref : nat).              (* n_plies_in_panels, ind_ref *)
Variables (local_limit global_limit : nat).          (* local_node_limit2, global_node_limit2 *)

Definition n_max : nat := Z.to_nat (last plies 0).
Definition unit_counts (a : Z) (counts : list Q) (x : Q) : result (list Q) :=
  match ind_angle (set_of_angles c) a with
  | None => Err KeyError
  | Some i => Ok (upd i (nth i counts 0 + x)%Q counts)
  end.
(** n_plies_per_angle_ref *)
Fixpoint count_plies (ss : list Z) (counts : list Q) : result (list Q) :=
  match ss with [] => Ok counts | a :: t => do x <- unit_counts a counts 1%Q; count_plies t x end.
Definition only (t : list (option (list Q))) (i : nat) (x : list Q) := upd i (Some x) t.
Definition nones {A} : list (option A) := repeat None (length plies).
Definition zero_coeffs : coefficients := {| c_diso := 0; c_contig := 0; c_10 := 0; c_bal_ipo := 0; c_oopo := 0; c_weight := 0 |}.
Definition target_of (p : Z) : result (list Q) := row_at (map Some targets) p.
Definition weight_of (p : Z) : result (list Q) := row_at (map Some weights) p.
Definition spacing_of (pdl : list (option (list Z))) : result Q :=
  calc_penalty_spacing (pdl_spacing c) (min_drop c) st None pdl None.

(** the angle queue of balance, thick_to_thin.py 205-227, apply_balance_1_by_1 = True *)
Definition queue_allows (q : list Z) (a : Z) : bool :=
  match q with [] => true | x :: _ => a =? - x end.
Definition next_queue (q : list Z) (a : Z) : list Z :=
  if bal c then match q with _ :: _ => [] | [] => if ((a =? 0) || (a =? 90))%bool then [] else [a] end else [].

(** *** thick to thin *)
(** lines 163-187: the positions that may be dropped *)
Definition thin_positions : result (list nat) :=
  let lo_hi (k : nat) := if sym c then seq k (n_max / 2 - k) else seq k (n_max - k - k) in
  if covering c then
    if Nat.eqb (n_covering c) 1 then Ok (lo_hi 1%nat)
    else if Nat.eqb (n_covering c) 2 then Ok (lo_hi 2%nat) else Err Unbound
  else Ok (lo_hi 0%nat).

(** lines 197-247: the candidate that drops the ply at position [k]; None when pruned for
    balance *)
Definition thin_child (pdl_ref : list Z) (s : step) (m : node) (k : nat) : result (option layout) :=
  let lay := fst m in
  do a <- (if bal c then match nth_error pdl_ref k with Some a => Ok a | None => Err IndexError end else Ok 0);
  if (bal c && negb (queue_allows (l_queue lay) a))%bool then Ok None
  else
    do row <- (if s_new s then row_at (l_pdl lay) (s_panel s + 1) else row_at (l_pdl lay) (s_panel s));
    do row1 <- drop_at k row;
    do row2 <- (if sym c then drop_at (n_max - k - 1) row1 else Ok row1);
    do pdl <- set_row (l_pdl lay) (s_panel s) row2;
    do sp <- spacing_of pdl;
    Ok (Some {| l_pdl := pdl; l_used := l_used lay ++ [k]; l_last := k; l_spacing := sp; l_queue := next_queue (l_queue lay) a |}).
Fixpoint children {A B} (f : A -> result (option B)) (l : list A) : result (list B) :=
  match l with
  | [] => Ok []
  | x :: t => do o <- f x; do r <- children f t; match o with Some y => Ok (y :: r) | None => Ok r end
  end.
Definition thin_branch (pdl_ref : list Z) (_ : nat) (s : step) (m : node) : result (list layout) :=
  do ps <- thin_positions;
  children (thin_child pdl_ref s m) (filter (fun k => negb (existsb (Nat.eqb k) (l_used (fst m)))) ps).

(** the guidelines that delete a candidate, lines 331-375 *)
Definition breaks_contig (ss : list Z) : result bool :=
  if contig c then do p <- calc_penalty_contig_ss ss c; Ok (negb (p =? 0)) else Ok false.
Definition breaks_10 (lp counts : list Q) : result bool :=
  if rule_10_percent c then
    if rule_10_Abdalla c then Ok (negb (Qeq_bool (dist lp) 0))
    else do p <- calc_penalty_10_pc counts c 1%Q; Ok (negb (Qeq_bool p 0))
  else Ok false.
(** lines 377-401: the objectives *)
Definition objectives_of (penalties : penalties) (p : Z) (lp : list Q) (objs : list (option Q)) : result (list (option Q) * Q) :=
  do tg <- target_of p; do w <- weight_of p;
  do o <- calc_obj_one_panel lp tg w;
  do objs' <- set_row objs p o;
  do obj <- calc_obj_multi_panel_nones objs' panel_weightings penalties zero_coeffs;
  Ok (objs', obj).
Definition penalty_list (d : list (option Q)) : penalties :=
  {| p_diso := AList d; p_contig := ANone; p_10 := ANone; p_bal_ipo := ANone; p_oopo := ANone; p_weight := ANone |}.
Definition no_penalties : penalties :=
  {| p_diso := ANone; p_contig := ANone; p_10 := ANone; p_bal_ipo := ANone; p_oopo := ANone; p_weight := ANone |}.

(** lines 292-414; the tables of the mother are copied *)
Definition thin_evaluate (pdl_ref : list Z) (s : step) (m : node) (x : layout) : result (option values_of) :=
  let p := s_panel s in let mv := snd m in
  do row <- row_at (l_pdl x) p;
  let ss := filter kept row in
  do base <- (if s_new s then row_at (v_counts mv) (p + 1) else row_at (v_counts mv) p);
  do a <- (match nth_error pdl_ref (l_last x) with Some a => Ok a | None => Err IndexError end);
  do counts1 <- unit_counts a base (-1)%Q;
  do counts2 <- (if (sym c && negb (Nat.eqb (n_max - l_last x - 1) (l_last x)))%bool then unit_counts a counts1 (-1)%Q else Ok counts1);
  do counts <- set_row (v_counts mv) p counts2;
  do d <- (if diso c then calc_n_penalty_diso_ss ss c else Ok 0);
  do dis <- set_row (v_diso mv) p (inject_Z d);
  do bc <- breaks_contig ss;
  if bc then Ok None
  else
    let lp := lampam ss in
    do lps <- set_row (v_lampam mv) p lp;
    do bt <- breaks_10 lp counts2;
    if bt then Ok None
    else
      do o <- objectives_of (penalty_list dis) p lp (v_objs mv);
      Ok (Some {| v_counts := counts; v_lampam := lps; v_diso := dis; v_objs := fst o; v_obj := snd o |}).

(** ply_drop_spacing.py:103-113 [is_same_pdl], thick_to_thin = True *)
Definition same_row (x y : option (list Z)) : bool :=
  match x, y with
  | None, _ => true
  | Some a, Some b => if list_eq_dec Z.eq_dec a b then true else false
  | Some _, None => false
  end.
Definition is_same_pdl (x y : layout) : bool :=
  forallb (fun i => same_row (nth i (l_pdl x) None) (nth i (l_pdl y) None)) (seq 0 ref).

(** the start, lines 61-137; [nth ref ss] is the stacking sequence of the reference panel *)
Definition thin_start (pdl_ref ss_ref : list Z) (lp_ref : list Q) : result node :=
  do counts <- count_plies ss_ref (repeat 0%Q (length (set_of_angles c)));
  let used := filter (fun k => nth k pdl_ref 0 =? -1) (seq 0 (if sym c then n_max / 2 else n_max)%nat) in
  Ok ({| l_pdl := upd ref (Some pdl_ref) nones; l_used := used; l_last := 0; l_spacing := 0; l_queue := [] |},
      {| v_counts := only nones ref counts; v_lampam := only nones ref lp_ref; v_diso := upd ref (Some 0%Q) nones; v_objs := nones; v_obj := 0 |}).

(** the tables handed over: reduced_sst, reduced_lampam, reduced_ss *)
Definition tables := (list (list Z) * list (list Q) * list (list Z))%type.

(** lines 625-634: symmetry of the panels thinner than the reference panel *)
Definition mirror_ok (n : nat) (l : list Z) : bool := forallb (fun i => nth i l 0 =? nth (length l - 1 - i) l 0) (seq 0 n).
Definition symmetry_check (sst ss : list (list Z)) : result unit :=
  if sym c then
    do _ <- guard (negb (forallb (fun s => mirror_ok (length s / 2) s) (firstn ref ss))) (Raised Other);
    guard (negb (forallb (mirror_ok (n_max / 2)) (firstn ref sst))) (Raised Other)
  else Ok tt.
(** lines 636-643: abs(x - y).all() < 1e-13 holds when at least one entry of x - y is zero *)
Definition lampam_check (lps tests : list (list Q)) : result unit :=
  guard (forallb (fun p => negb (Qeq_bool (fst p) (snd p))) (List.combine (concat lps) (concat tests))) (Raised Other).
(** lines 645-650 *)
Definition count_check (ss : list (list Z)) : result unit :=
  guard (negb (forallb (fun i => zlen (nth i ss []) =? nth i plies 0) (seq 0 ref))) (Raised WrongPlyCount).

(** lines 614-623: the rows of the panels thinner than the reference panel are replaced *)
Fixpoint replace_rows {A} (k : nat) (news : list (option A)) (t : list A) : result (list A) :=
  match k, t with
  | O, _ => Ok t
  | S k', x :: t' =>
    match news with
    | Some y :: news' => do r <- replace_rows k' news' t'; Ok (y :: r)
    | _ => Err TypeError
    end
  | S _, [] => Err IndexError
  end.

(** thick_to_thin.py 48-652; [table] as given by [thin_table]. Line 85 and 92 keep the
    reference row. The last node of equal objectives does not matter: np.argmin takes the
    first *)
Definition repair_thick_to_thin (table : option (list step)) (t : tables) : result (bool * tables) :=
  match table with
  | None => Ok (true, t)
  | Some steps =>
    let '(sst, lps, ss) := t in
    do pdl_ref <- row sst ref; do lp_ref <- row lps ref; do ss_ref <- row ss ref;
    do m <- thin_start pdl_ref ss_ref lp_ref;
    do r <- search (thin_branch pdl_ref) (thin_evaluate pdl_ref) is_same_pdl local_limit global_limit 0 steps [m];
    match r with
    | None => Ok (false, t)
    | Some nodes =>
      do k <- argmin (map (fun x => v_obj (snd x)) nodes);
      let best := nth k nodes m in
      do sst' <- replace_rows ref (l_pdl (fst best)) sst;
      do lps' <- replace_rows ref (v_lampam (snd best)) lps;
      do ss' <- replace_rows ref (map (option_map (filter kept)) (l_pdl (fst best))) ss;
      do _ <- symmetry_check sst' ss';
      do _ <- lampam_check (firstn ref lps') (map lampam (firstn ref ss'));
      do _ <- count_check ss';
      Ok (true, (sst', lps', ss'))
    end
  end.

(** *** thin to thick *)
(** thin_to_thick.py 64-67: the columns in which the reference panel has no ply go *)
Definition clean (pdl_ref : list Z) (sst : list (list Z)) : list (list Z) :=
  map (fun r => map snd (filter (fun p => kept (fst p)) (List.combine pdl_ref r))) sst.

(** lines 186-202; [n] is the number of plies of the current laminate *)
Definition thick_positions (n : nat) : result (list nat) :=
  let lo_hi (k : nat) := if sym c then seq k (n / 2 + 1 - k) else seq k (n + 1 - k - k) in
  if covering c then
    if Nat.eqb (n_covering c) 1 then Ok (lo_hi 1%nat)
    else if Nat.eqb (n_covering c) 2 then Ok (lo_hi 2%nat) else Err Unbound
  else Ok (lo_hi 0%nat).

(** np.hstack((row[:k], x, row[k:])) *)
Definition insert_at (k : nat) (x : Z) (row : list Z) : list Z := firstn k row ++ x :: skipn k row.
(** lines 253-279: both insertions in a row *)
Definition widen (n k : nat) (x : Z) (row : list Z) : list Z :=
  let r := insert_at k x row in if sym c then insert_at (n - k + 1) x r else r.
(** lines 257-274: rows before the current panel; None[:k] raises TypeError *)
Fixpoint widen_rows (i : nat) (n k : nat) (t : list (option (list Z))) : result (list (option (list Z))) :=
  match i, t with
  | O, _ => Ok t
  | S i', Some r :: t' => do x <- widen_rows i' n k t'; Ok (Some (widen n k (-1) r) :: x)
  | S _, None :: _ => Err TypeError
  | S _, [] => Err IndexError
  end.

(** lines 210-297. np.copy(set_of_angles, int) passes int as the memory order, which old
    releases of numpy accept: a copy *)
Definition thick_child (n : nat) (s : step) (m : node) (ka : nat * Z) : result (option layout) :=
  let lay := fst m in let (k, a) := ka in
  if (bal c && negb (queue_allows (l_queue lay) a))%bool then Ok None
  else
    do pdl0 <- (if s_new s then do r <- row_at (l_pdl lay) (s_panel s - 1); set_row (l_pdl lay) (s_panel s) r else Ok (l_pdl lay));
    do pdl1 <- widen_rows (Z.to_nat (s_panel s)) n k pdl0;
    do r <- row_at pdl1 (s_panel s);
    do pdl <- set_row pdl1 (s_panel s) (widen n k a r);
    do sp <- spacing_of pdl;
    Ok (Some {| l_pdl := pdl; l_used := []; l_last := k; l_spacing := sp; l_queue := next_queue (l_queue lay) a |}).
(** lines 143-154: the number of plies at step [k] *)
Definition plies_at (k : nat) : nat := Z.to_nat (nth ref plies 0 + drop_unit (sym c) * Z.of_nat k).
Definition thick_branch (k : nat) (s : step) (m : node) : result (list layout) :=
  do ps <- thick_positions (plies_at k);
  children (thick_child (plies_at k) s m) (list_prod ps (set_of_angles c)).

(** lines 341-470: disorientation deletes candidates too *)
Definition breaks_diso (ss : list Z) : result bool :=
  if diso c then do p <- calc_n_penalty_diso_ss ss c; Ok (negb (p =? 0)) else Ok false.
Definition thick_evaluate (s : step) (m : node) (x : layout) : result (option values_of) :=
  let p := s_panel s in let mv := snd m in
  do row <- row_at (l_pdl x) p;
  let ss := filter kept row in
  do bd <- breaks_diso ss;
  if bd then Ok None
  else
    do bc <- breaks_contig ss;
    if bc then Ok None
    else
      do base <- (if s_new s then row_at (v_counts mv) (p - 1) else row_at (v_counts mv) p);
      do a <- (match nth_error ss (l_last x) with Some a => Ok a | None => Err IndexError end);
      do counts1 <- unit_counts a base (inject_Z (drop_unit (sym c)));
      do counts <- set_row (v_counts mv) p counts1;
      let lp := lampam ss in
      do lps <- set_row (v_lampam mv) p lp;
      do bt <- breaks_10 lp counts1;
      if bt then Ok None
      else
        do o <- objectives_of no_penalties p lp (v_objs mv);
        Ok (Some {| v_counts := counts; v_lampam := lps; v_diso := v_diso mv; v_objs := fst o; v_obj := snd o |}).

(** lines 81-147: the rows up to the reference panel are given *)
Definition thick_start (sst : list (list Z)) (lps : list (list Q)) (ss_ref : list Z) : result node :=
  do counts <- count_plies ss_ref (repeat 0%Q (length (set_of_angles c)));
  Ok ({| l_pdl := map Some (firstn (S ref) sst) ++ repeat None (length plies - S ref); l_used := []; l_last := 0; l_spacing := 0; l_queue := [] |},
      {| v_counts := only nones ref counts; v_lampam := map Some lps; v_diso := nones; v_objs := upd ref (Some 0%Q) nones; v_obj := 0 |}).

(** every row of the table must be an array: None[None != -1] raises TypeError *)
Fixpoint all_rows {A} (t : list (option A)) : result (list A) :=
  match t with [] => Ok [] | Some x :: t' => do r <- all_rows t'; Ok (x :: r) | None :: _ => Err TypeError end.
Definition never_same (_ _ : layout) : bool := false.

(** thin_to_thick.py 52-681 *)
Definition repair_thin_to_thick (table : option (list step)) (t : tables) : result (bool * tables) :=
  let '(sst0, lps, ss) := t in
  do ss_ref <- row ss ref; do pdl_ref <- row sst0 ref;
  let sst := clean pdl_ref sst0 in
  match table with
  | None => Ok (true, (sst, lps, ss))
  | Some steps =>
    do m <- thick_start sst lps ss_ref;
    do r <- search thick_branch thick_evaluate never_same local_limit global_limit 0 steps [m];
    match r with
    | None => Ok (false, (sst, lps, ss))
    | Some nodes =>
      do k <- argmin (map (fun x => v_obj (snd x)) nodes);
      let best := nth k nodes m in
      do sst' <- all_rows (l_pdl (fst best));
      do lps' <- all_rows (v_lampam (snd best));
      let ss' := convert_sst_to_ss sst' in
      do _ <- symmetry_check sst' ss';
      do _ <- lampam_check lps' (map lampam ss');
      do _ <- count_check ss';
      Ok (true, (sst', lps', ss'))
    end
  end.
End Panels.
