(* Strip.v - model of src/BELLA/multipanels.py (connectivity, boundaries, boundary
   weights, weights of a structure) and src/BELLA/reduced_multipanels.py (blending
   strip). Definitions only. *)
From Verif Require Import Base Uniq Divers Spacing.

(** the attributes of a Panel used here (panels.py:19-120) *)
Record panel := {
  p_ID : Z; p_nplies : Z; p_neigh : list Z; p_weighting : Q; p_area : Q }.

(* ------------------------------------------------------------------ *)
(** * Pairs sorted lexicographically without repetition: np.unique(.., axis=0) *)
Definition pair_ltb (a b : nat * nat) : bool :=
  (Nat.ltb (fst a) (fst b) || (Nat.eqb (fst a) (fst b) && Nat.ltb (snd a) (snd b)))%bool.
Fixpoint pins (a : nat * nat) (l : list (nat * nat)) : list (nat * nat) :=
  match l with
  | [] => [a]
  | b :: t => if pair_ltb a b then a :: b :: t
              else if key_eqb a b then b :: t else b :: pins a t
  end.
Fixpoint puniq (l : list (nat * nat)) : list (nat * nat) :=
  match l with [] => [] | a :: t => pins a (puniq t) end.

(** np.sort of a pair *)
Definition psort (p : nat * nat) : nat * nat :=
  if Nat.leb (fst p) (snd p) then p else (snd p, fst p).
Definition pflip (p : nat * nat) : nat * nat := (snd p, fst p).

(* ------------------------------------------------------------------ *)
(** * multipanels.py:104-153 calc_panel_boundary_dict, IDs, boundaries, connection *)

Definition ids (ps : list panel) : list Z := map p_ID ps.

(** dict_ID_to_indices[neighbour] (KeyError when unknown); the IDs are distinct when
    this is used, so the first index is the only one *)
Definition id_index (ps : list panel) (n : Z) : result nat :=
  match index_of n (ids ps) with Some i => Ok i | None => Err KeyError end.

Fixpoint mapR {A B} (f : A -> result B) (l : list A) : result (list B) :=
  match l with [] => Ok [] | a :: t => do b <- f a; do r <- mapR f t; Ok (b :: r) end.

(** lines 122-127: the boundaries declared by panel number i *)
Definition declared_of (ps : list panel) (i : nat) (p : panel) : result (list (nat * nat)) :=
  do ns <- mapR (id_index ps) (p_neigh p);
  Ok (flat_map (fun e => [psort (i, e); pflip (psort (i, e))]) ns).

Fixpoint declared_from (ps : list panel) (i : nat) (l : list panel) : result (list (nat * nat)) :=
  match l with
  | [] => Ok []
  | p :: t => do a <- declared_of ps i p; do b <- declared_from ps (S i) t; Ok (a ++ b)
  end.

(** line 138: which element set.pop() takes is not specified; [pop] is an oracle *)
Definition pop_at (pop : list nat -> nat) (avail : list nat) : nat :=
  Nat.modulo (pop avail) (length avail).

Definition memn (x : nat) (l : list nat) : bool := existsb (Nat.eqb x) l.

(** lines 140-143 *)
Fixpoint add_neighbours (bs : list (nat * nat)) (cur : nat) (visited avail : list nat) : list nat :=
  match bs with
  | [] => avail
  | (a, b) :: t =>
    if (Nat.eqb a cur && negb (memn b visited) && negb (memn b avail))%bool
    then add_neighbours t cur visited (avail ++ [b])
    else add_neighbours t cur visited avail
  end.

(** lines 137-143; [k] is n_panels - len(visited_nodes) *)
Fixpoint visit (pop : list nat -> nat) (bs : list (nat * nat)) (k : nat)
         (visited avail : list nat) : list nat :=
  match k with
  | O => visited
  | S k' =>
    match avail with
    | [] => visited
    | _ =>
      let i := pop_at pop avail in
      let cur := nth i avail 0%nat in
      let visited := visited ++ [cur] in
      visit pop bs k' visited (add_neighbours bs cur visited (del i avail))
    end
  end.

(** multipanels.py:110-153: the boundaries of the structure. [min] of an empty list
    of panels (line 37) is a ValueError. *)
Definition mp_boundaries (pop : list nat -> nat) (ps : list panel) : result (list (nat * nat)) :=
  match ps with
  | [] => Err ValueError
  | _ =>
    do _ <- guard (negb (Nat.eqb (length (uniq (ids ps))) (length ps))) (Raised DuplicateId);
    do decl <- declared_from ps 0 ps;
    let bs := puniq decl in
    let visited := visit pop bs (length ps) [] [0%nat] in
    do _ <- guard (negb (Nat.eqb (length visited) (length ps))) (Raised Disconnected);
    Ok (puniq (map psort bs))
  end.

(* ------------------------------------------------------------------ *)
(** * Dictionaries with pairs as keys *)
Definition dict := list ((nat * nat) * Q).
(** d[k] = v *)
Fixpoint dset (d : dict) (k : nat * nat) (v : Q) : dict :=
  match d with
  | [] => [(k, v)]
  | e :: t => if key_eqb (fst e) k then (k, v) :: t else e :: dset t k v
  end.

(* ------------------------------------------------------------------ *)
(** * multipanels.py:163-208 boundary weights *)

(** user dictionary: keys are pairs of panel IDs *)
Definition udict := list ((Z * Z) * Q).
Definition ulookup (d : udict) (k : Z * Z) : option Q :=
  match find (fun e => ((fst (fst e) =? fst k) && (snd (fst e) =? snd k))%bool) d with
  | Some e => Some (snd e) | None => None end.
(** Python truth of [weight]: not None and not zero *)
Definition truthy (o : option Q) : option Q :=
  match o with Some w => if Qeq_bool w 0 then None else Some w | None => None end.

Definition id_of (ps : list panel) (i : nat) : Z := nth i (ids ps) 0.
Definition zsort (a b : Z) : Z * Z := if a <=? b then (a, b) else (b, a).

(** lines 178-198: weight stored for one boundary (i, j), i <= j *)
Definition store_weight (ps : list panel) (ud : udict) (d : dict) (b : nat * nat) : result dict :=
  let k := zsort (id_of ps (fst b)) (id_of ps (snd b)) in
  match truthy (ulookup ud k) with
  | Some w => Ok (dset d (psort b) w)
  | None =>
    match truthy (ulookup ud (snd k, fst k)) with
    | Some w => Ok (dset d (pflip (psort b)) w)
    | None => Err (Raised BadDefinition)
    end
  end.

Fixpoint store_weights (ps : list panel) (ud : udict) (d : dict) (bs : list (nat * nat)) : result dict :=
  match bs with
  | [] => Ok d
  | b :: t => do d' <- store_weight ps ud d b; store_weights ps ud d' t
  end.

(** lines 163-208: self.boundary_weights *)
Definition mp_boundary_weights (ps : list panel) (bs : list (nat * nat)) (ud : option udict) : result dict :=
  match ud with
  | Some u =>
    do _ <- guard (existsb (fun e => negb (Qle_bool 0 (snd e))) u) (Raised BadDefinition);
    do _ <- guard (Nat.ltb (length u) (length bs)) (Raised BadDefinition);
    store_weights ps u [] bs
  | None => Ok (fold_left (fun d b => dset d (psort b) 1%Q) bs [])
  end.

(* ------------------------------------------------------------------ *)
(** * reduced_multipanels.py:47-59 *)

(** np.unique(..., return_index, return_inverse) of the ply counts *)
Definition n_plies_of (ps : list panel) : list Z := map p_nplies ps.
Definition strip_plies (ps : list panel) : list Z := uniq (n_plies_of ps).
Definition first_index (a : Z) (l : list Z) : nat :=
  match index_of a l with Some i => i | None => 0%nat end.
Definition ind_for_reduc (ps : list panel) : list nat :=
  map (fun n => first_index n (n_plies_of ps)) (strip_plies ps).
Definition ind_panels_guide (ps : list panel) : list nat :=
  map (fun n => first_index n (strip_plies ps)) (n_plies_of ps).

(** lines 52-59: middle plies; [seen] is has_middle_ply *)
Fixpoint middle_check (seen : bool) (l : list Z) : result unit :=
  match l with
  | [] => Ok tt
  | n :: t =>
    if (seen && Z.even n)%bool then Err (Raised BadDefinition)
    else middle_check (seen || Z.odd n)%bool t
  end.

(** lines 86-95, the while loop; [l] is n_plies_in_panels[index:] *)
Fixpoint ref_loop (l : list Z) (index : nat) (r : Z) : result nat :=
  match l with
  | n1 :: ((n2 :: _) as t) =>
    if ((n1 <? r) && (r <=? n2))%bool then Ok (S index) else ref_loop t (S index) r
  | _ => Err IndexError
  end.

(** lines 78-95 (the first [if] is overwritten by the following ones) *)
Definition ind_ref (plies : list Z) (r : Z) : result nat :=
  match plies with
  | [] => Err IndexError
  | n0 :: _ =>
    if r <=? n0 then Ok 0%nat
    else if last plies 0 <=? r then Ok (length plies - 1)%nat
    else ref_loop plies 0 r
  end.

(** lines 120-128: strip boundaries; [guide] is ind_panels_guide *)
Definition to_strip (guide : list nat) (b : nat * nat) : nat * nat :=
  psort (nth (fst b) guide 0%nat, nth (snd b) guide 0%nat).
Fixpoint strip_boundaries (guide : list nat) (bs acc : list (nat * nat)) : list (nat * nat) :=
  match bs with
  | [] => acc
  | b :: t =>
    let s := to_strip guide b in
    if (negb (existsb (key_eqb s) acc) && negb (Nat.eqb (fst s) (snd s)))%bool
    then strip_boundaries guide t (acc ++ [s])
    else strip_boundaries guide t acc
  end.

(** lines 131-146: aggregated boundary weights *)
Definition has_key (d : dict) (k : nat * nat) : bool := existsb (fun e => key_eqb (fst e) k) d.
Fixpoint strip_weights (guide : list nat) (w : dict) (bs : list (nat * nat)) (d : dict) : result dict :=
  match bs with
  | [] => Ok d
  | b :: t =>
    do x <- lookup w b;
    let s := to_strip guide b in
    if Nat.eqb (fst s) (snd s) then strip_weights guide w t d
    else if has_key d s then
      do y <- lookup d s; strip_weights guide w t (dset d s (y + x)%Q)
    else strip_weights guide w t (dset d s x)
  end.

(** lines 160-163: actual_panel_weightings; [reps] are self.panels, the
    representative panels of the strip *)
Definition addq (l : list Q) (i : nat) (x : Q) : list Q := upd i (nth i l 0 + x)%Q l.
Fixpoint strip_weightings (guide : list nat) (i : nat) (reps : list panel) (acc : list Q) : list Q :=
  match reps with
  | [] => acc
  | p :: t => strip_weightings guide (S i) t (addq acc (nth i guide 0%nat) (p_weighting p))
  end.
Definition strip_panels (ps : list panel) : list panel :=
  map (fun i => nth i ps {| p_ID := 0; p_nplies := 0; p_neigh := []; p_weighting := 0; p_area := 0 |})
      (ind_for_reduc ps).
Definition actual_panel_weightings (ps : list panel) : list Q :=
  strip_weightings (ind_panels_guide ps) 0 (strip_panels ps)
    (repeat 0%Q (length (strip_plies ps))).

(** lines 165-198: weightings of the panels still to design, thick-to-thin side:
    entry for panel k < ind_ref *)
Definition normalise (l : list Q) : list Q := map (fun x => (x / sumQ l)%Q) l.
Definition add_first (x : Q) (l : list Q) : list Q :=
  match l with [] => [] | a :: t => (a + x)%Q :: t end.
Definition add_last (x : Q) (l : list Q) : list Q :=
  match rev l with [] => [] | a :: t => rev ((a + x)%Q :: t) end.
Definition weightings_thin (w : list Q) (ref k : nat) : list Q :=
  let v := normalise (firstn ref w) in
  add_first (sumQ (firstn k v)) (skipn k v).
(** entry for panel k > ind_ref *)
Definition weightings_thick (w : list Q) (ref k : nat) : list Q :=
  let v := normalise (skipn (S ref) w) in
  add_last (sumQ (skipn (k - ref) v)) (firstn (k - ref) v).

(* ------------------------------------------------------------------ *)
(** * reduced_multipanels.py:201-358 calc_parameters: step tables *)
Record step := {
  s_panel : Z;          (* ind_panel_tab *)
  s_panel_plies : Z;    (* n_plies_panel_after_tab *)
  s_after : Z; s_before : Z; s_new : bool; s_designed : Z }.

Definition drop_unit (sym : bool) : Z := if sym then 2 else 1.

(** lines 259-284 *)
Definition thin_step (sym : bool) (plies : list Z) (s : step) : result step :=
  let d := drop_unit sym in
  let after := s_after s - d in
  let before := s_before s - d in
  if after <? s_panel_plies s then
    let i := s_panel s - 1 in
    do n <- get plies i;
    Ok {| s_panel := i; s_panel_plies := n; s_after := after; s_before := before;
          s_new := true; s_designed := s_designed s + 1 |}
  else
    Ok {| s_panel := s_panel s; s_panel_plies := s_panel_plies s; s_after := after;
          s_before := before; s_new := false; s_designed := s_designed s |}.

(** lines 325-350 *)
Definition thick_step (sym : bool) (plies : list Z) (s : step) : result step :=
  let d := drop_unit sym in
  let after := s_after s + d in
  let before := s_before s + d in
  if s_panel_plies s <? after then
    let i := s_panel s + 1 in
    do n <- get plies i;
    Ok {| s_panel := i; s_panel_plies := n; s_after := after; s_before := before;
          s_new := true; s_designed := s_designed s + 1 |}
  else
    Ok {| s_panel := s_panel s; s_panel_plies := s_panel_plies s; s_after := after;
          s_before := before; s_new := false; s_designed := s_designed s |}.

(** [k] further steps after [s] *)
Fixpoint steps (f : step -> result step) (k : nat) (s : step) : result (list step) :=
  match k with
  | O => Ok [s]
  | S k' => do s' <- f s; do r <- steps f k' s'; Ok (s :: r)
  end.

Definition halve (sym : bool) (n : Z) : Z := if sym then n / 2 else n.

(** lines 226-291; None when there is no step *)
Definition thin_table (sym : bool) (plies : list Z) (ref : nat) : result (option (list step)) :=
  let nref := nth ref plies 0 in
  let n := halve sym (nref - nth 0 plies 0) in
  if n =? 0 then Ok None else
  let i := Z.of_nat ref - 1 in
  do p <- get plies i;
  do t <- steps (thin_step sym plies) (Z.to_nat n - 1)
    {| s_panel := i; s_panel_plies := p; s_after := nref - drop_unit sym; s_before := nref;
       s_new := true; s_designed := 0 |};
  Ok (Some t).

(** lines 293-358 *)
Definition thick_table (sym : bool) (plies : list Z) (ref : nat) : result (option (list step)) :=
  let nref := nth ref plies 0 in
  let n := halve sym (last plies 0 - nref) in
  if n =? 0 then Ok None else
  let i := Z.of_nat ref + 1 in
  do p <- get plies i;
  do t <- steps (thick_step sym plies) (Z.to_nat n - 1)
    {| s_panel := i; s_panel_plies := p; s_after := nref + drop_unit sym; s_before := nref;
       s_new := true; s_designed := 0 |};
  Ok (Some t).

(* ------------------------------------------------------------------ *)
(** * format_pdl.py:193-227 reduce_/extend_ (lists or tables by rows) *)
Definition reduce_for_guide_based_blending {A} (ps : list panel) (data : list A) : result (list A) :=
  mapR (row data) (ind_for_reduc ps).
Definition extend_after_guide_based_blending {A} (ps : list panel) (data : list A) : result (list A) :=
  mapR (row data) (ind_panels_guide ps).

(* ------------------------------------------------------------------ *)
(** * multipanels.py:244-265 weights *)
Definition calc_weight (ps : list panel) (density : Q) : Q :=
  (density * sumQ (map (fun p => p_area p * inject_Z (p_nplies p)) ps))%Q.
Definition calc_weight_per_panel (ps : list panel) (density : Q) : list Q :=
  map (fun p => (density * (p_area p * inject_Z (p_nplies p)))%Q) ps.
(** sst[ind_panel]: IndexError when the table has too few rows *)
Fixpoint weight_terms (sst : list (list Z)) (ind : nat) (ps : list panel) : result (list Q) :=
  match ps with
  | [] => Ok []
  | p :: t =>
    do r <- row sst ind;
    do s <- weight_terms sst (S ind) t;
    Ok ((p_area p * inject_Z (Z.of_nat (countb (fun x => negb (x =? -1)) r)))%Q :: s)
  end.
Definition calc_weight_from_sst (ps : list panel) (sst : list (list Z)) (density : Q) : result Q :=
  do l <- weight_terms sst 0 ps; Ok (density * sumQ l)%Q.
