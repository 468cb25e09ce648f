(* Structure.v - model of the queries of src/BELLA/multipanels.py (22-54 attributes, 211-231,
   267-315), of the position of the middle ply of src/BELLA/panels.py 215-234 and of the
   compatibility check of src/BELLA/reduced_multipanels.py 52-59 (middle_check of Strip.v).
   Definitions only. *)
From Verif Require Import Base Uniq Divers Strip.
Local Open Scope Z_scope.

(** panels.py 227-233: middle_ply_index of a panel of n plies *)
Definition middle_ply_index (sym : bool) (n : Z) : Z := if (sym && (n mod 2 =? 1))%bool then (n + 1) / 2 else 0.

(** multipanels.py 36-40: n_plies_min, n_plies_max; min and max of no value is a ValueError *)
Definition best_of (f : Z -> Z -> Z) (l : list Z) : result Z := match l with [] => Err ValueError | a :: t => Ok (fold_left f t a) end.
Definition n_plies_min (ps : list panel) : result Z := best_of Z.min (n_plies_of ps).
Definition n_plies_max (ps : list panel) : result Z := best_of Z.max (n_plies_of ps).
(** lines 41-42 *)
Definition is_thick_panels (ps : list panel) : result (list bool) :=
  do m <- n_plies_max ps; Ok (map (fun p => p_nplies p =? m) ps).
(** lines 31 and 34 *)
Definition area (ps : list panel) : Q := sumQ (map p_area ps).
Definition area_patches (ps : list panel) : Q := sumQ (map (fun p => (p_area p * inject_Z (p_nplies p))%Q) ps).

(** lines 211-231 has_a_middle_ply: middle_ply_indices, has_middle_ply, thick_panel_has_middle_ply *)
Definition has_a_middle_ply (sym : bool) (ps : list panel) : result (list Z * bool * bool) :=
  do m <- n_plies_max ps;
  let indices := map (fun p => middle_ply_index sym (p_nplies p)) ps in
  let has := negb (sumZ indices =? 0) in
  Ok (indices, has, (has && negb (m mod 2 =? 0))%bool).

(** enumerate(self.panels), keeping the indices of the panels that satisfy [f] *)
Fixpoint indices_of (f : panel -> bool) (ps : list panel) (i : nat) : list nat :=
  match ps with [] => [] | p :: t => if f p then i :: indices_of f t (S i) else indices_of f t (S i) end.

(** lines 281-290 identify_one_thickest_panel: ind_thick *)
Definition identify_one_thickest_panel (ps : list panel) : result nat :=
  do m <- n_plies_max ps;
  match indices_of (fun p => p_nplies p =? m) ps 0 with i :: _ => Ok i | [] => Err (Raised Other) end.

(** lines 293-311 identify_thickest_panels *)
Definition identify_thickest_panels (sym : bool) (ps : list panel) : result (list nat) :=
  do m <- n_plies_max ps;
  let l := if (sym && (m mod 2 =? 1))%bool
           then indices_of (fun p => ((p_nplies p =? m) || (p_nplies p =? m - 1))%bool) ps 0
           else indices_of (fun p => p_nplies p =? m) ps 0 in
  match l with [] => Err (Raised Other) | _ => Ok l end.

(** lines 267-278 identify_neighbour_panels: liste[a].append(b); liste[b].append(a) *)
Definition append_at (l : list (list nat)) (i x : nat) : result (list (list nat)) :=
  do r <- get l (Z.of_nat i); Ok (upd i (r ++ [x]) l).
Fixpoint neighbour_lists (bs : list (nat * nat)) (l : list (list nat)) : result (list (list nat)) :=
  match bs with
  | [] => Ok l
  | (a, b) :: t => do l1 <- append_at l a b; do l2 <- append_at l1 b a; neighbour_lists t l2
  end.
Definition identify_neighbour_panels (n_panels : nat) (bs : list (nat * nat)) : result (list (list nat)) :=
  neighbour_lists bs (repeat [] n_panels).

(** lines 56-73 should_you_use_BELLA: whether the message recommending LAYLA is displayed *)
Definition layla_recommended (ps : list panel) : bool := Nat.eqb (length ps) 1.
