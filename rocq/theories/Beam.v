(* Beam.v - model of the beam search of src/BELLA/optimiser_with_one_pdl.py (lines 80-369).
   The tables are those of Search.v: [t_ss] holds the bottom and top parts of the stack of
   every panel (ss_bot_tab and ss_top_tab, Python lists that always get the same
   operations), [t_num] the lamination parameters and the ply counts of every panel
   (lampam_tab, n_plies_per_angle_tab), [t_obj] obj_constraints_tab. Floats are exact
   rationals; the objective function is any function of the level and of the lamination
   parameters of the panels (lines 228-281: the penalties are all zero). Definitions only. *)
From Verif Require Import Base Constraints Guidelines Pruning Moments Search.
Local Open Scope Z_scope.

Definition stacks := list (list Z * list Z).
Definition numbers := list (lampam * list Q).
Definition btables := tables_of stacks numbers.

Record problem := {
  p_cons : cons;
  p_n : nat;                          (* n_plies_to_optimise *)
  p_middle : bool;                    (* multipanel.has_middle_ply *)
  p_thick : nat;                      (* multipanel.reduced.ind_thick *)
  p_pdl : list (list Z);              (* the layout, one row per panel *)
  p_mat : list (list (Z -> lampam));  (* lampam_matrix, one entry per panel: level, angle *)
  p_score : nat -> list lampam -> Q;  (* objective of a node created at a level *)
  p_local : nat; p_local_final : nat; p_global : nat; p_global_final : nat }.

(** lines 188-213: the stack of one panel *)
Definition grow_stack (sym : bool) (level : nat) (row : list Z) (a : Z) (s : list Z * list Z) : list Z * list Z :=
  if 0 <=? nth level row (-1) then
    if (sym || Nat.even level)%bool then (fst s ++ [a], snd s) else (fst s, a :: snd s)
  else s.

(** lines 152-166: the ply counts of one panel *)
Definition grow_counts (set : list Z) (half : bool) (level : nat) (row : list Z) (a : Z) (ct : list Q) : list Q :=
  if 0 <=? nth level row (-1) then
    match ind_angle set a with
    | Some k => upd k (nth k ct 0 + (if half then 1 # 2 else 1))%Q ct
    | None => ct
    end
  else ct.

(** lines 174-180: the lamination parameters of one panel *)
Definition grow_lampam (level : nat) (m : list (Z -> lampam)) (a : Z) (x : lampam) : lampam :=
  lampam_add x (nth level m (fun _ => lampam_zero) a).

Definition child_stacks (pb : problem) (level : nat) (s : stacks) (a : Z) : stacks :=
  map (fun rs => grow_stack (sym (p_cons pb)) level (fst rs) a (snd rs)) (List.combine (p_pdl pb) s).
Definition child_numbers (pb : problem) (half : bool) (level : nat) (x : numbers) (a : Z) : numbers :=
  map (fun rx => (grow_lampam level (snd (fst rx)) a (fst (snd rx)),
                  grow_counts (set_of_angles (p_cons pb)) half level (fst (fst rx)) a (snd (snd rx))))
      (List.combine (List.combine (p_pdl pb) (p_mat pb)) x).

(** lines 96-328: the first node is taken off the tables, its children are appended, and the
    worst of them are removed; ind_angles_dict[angle] is a KeyError for an angle that is not
    allowed (0 or 90 for a middle ply) *)
Definition expand (pb : problem) (final : bool) (level : nat) (t : btables) : result btables :=
  match t_ss t, t_num t, t_obj t with
  | s :: ss, x :: num, _ :: obj =>
    let guide := nth (p_thick pb) s ([], []) in
    do r <- pruning (p_cons pb) (p_n pb) level (p_middle pb) (fst guide) (snd guide) (set_of_angles (p_cons pb));
    match r with
    | None => Ok {| t_ss := ss; t_num := num; t_obj := obj |}
    | Some angs =>
      do _ <- guard (existsb (fun a => match ind_angle (set_of_angles (p_cons pb)) a with Some _ => false | None => true end) angs) KeyError;
      let nums := map (child_numbers pb (final && p_middle pb) level x) angs in
      local_pruning (Nat.eqb (S level) (p_n pb)) (length angs) (if final then p_local_final pb else p_local pb)
        {| t_ss := ss ++ map (child_stacks pb level s) angs;
           t_num := num ++ nums;
           t_obj := obj ++ map (fun y => p_score pb level (map fst y)) nums |}
    end
  | _, _, _ => Err IndexError
  end.

(** "for node in range(n_nodes)" *)
Fixpoint expand_nodes (pb : problem) (final : bool) (level : nat) (k : nat) (t : btables) : result btables :=
  match k with
  | O => Ok t
  | S k' => do t' <- expand pb final level t; expand_nodes pb final level k' t'
  end.

Definition level_step (pb : problem) (final : bool) (level : nat) (t : btables) : result btables :=
  do t' <- expand_nodes pb final level (length (t_obj t)) t;
  global_pruning (if final then p_global_final pb else p_global pb) t'.

(** lines 112-369: "for level in indices", [end_level] is indices[-1] *)
Fixpoint beam_from (pb : problem) (end_level : nat) (levels : list nat) (t : btables) : result btables :=
  match levels with
  | [] => Ok t
  | l :: ls => do t' <- level_step pb (Nat.eqb l end_level) l t; beam_from pb end_level ls t'
  end.

(** lines 80-101: one node, all panels empty *)
Definition start (pb : problem) : btables :=
  let np := length (p_pdl pb) in
  {| t_ss := [repeat ([], []) np];
     t_num := [repeat (lampam_zero, repeat 0%Q (length (set_of_angles (p_cons pb)))) np];
     t_obj := [0%Q] |}.

Definition beam (pb : problem) (levels : list nat) : result btables :=
  beam_from pb (last levels 0%nat) levels (start pb).

(** lines 376-409: the full stacking sequence of a panel of [n] plies *)
Definition final_stack (sym : bool) (n : nat) (s : list Z * list Z) : result (list Z) :=
  full_stack sym n {| nd_bot := fst s; nd_top := snd s; nd_lampam := lampam_zero |}.
