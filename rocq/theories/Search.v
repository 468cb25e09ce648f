(* Search.v - model of the selection steps of the search: local and global pruning of the
   beam search (src/BELLA/optimiser_with_one_pdl.py), the loop over the initial ply-drop
   layouts (src/BELLA/optimiser.py, src/BELLA/results.py) and the stores of generated
   ply-drop layouts (src/BELLA/pdl_group.py, src/BELLA/pdl_ini.py). Floats are exact
   rationals; NaN is None. Definitions only. *)
From Verif Require Import Base.
Local Open Scope Z_scope.

Definition Qltb (x y : Q) : bool := negb (Qle_bool y x).

(** np.argmin / np.argmax: index of the first best entry; ValueError on an empty array *)
Fixpoint argbest_from (lt : Q -> Q -> bool) (best : Q) (bi i : nat) (l : list Q) : nat :=
  match l with
  | [] => bi
  | x :: t => if lt x best then argbest_from lt x i (S i) t else argbest_from lt best bi (S i) t
  end.
Definition argbest (lt : Q -> Q -> bool) (l : list Q) : result nat :=
  match l with [] => Err ValueError | x :: t => Ok (argbest_from lt x 0 1 t) end.
Definition argmin : list Q -> result nat := argbest Qltb.
Definition argmax : list Q -> result nat := argbest (fun x y => Qltb y x).

(** repeat k times: find the best entry, remember its index, overwrite it with a sentinel *)
Fixpoint mark (arg : list Q -> result nat) (sentinel : Q) (k : nat) (v : list Q) : result (list nat * list Q) :=
  match k with
  | O => Ok ([], v)
  | S k' =>
    do i <- arg v;
    do r <- mark arg sentinel k' (upd i sentinel v);
    Ok (i :: fst r, snd r)
  end.

(** np.delete(l, idxs): the entries whose index is not in idxs *)
Definition np_delete {A} (idxs : list nat) (l : list A) : list A :=
  map snd (filter (fun p => negb (existsb (Nat.eqb (fst p)) idxs)) (combine (seq 0 (length l)) l)).

(** for ind in sorted(idxs, reverse=True): del l[ind] *)
Fixpoint ninsert (a : nat) (l : list nat) : list nat :=
  match l with [] => [a] | h :: t => if (h <=? a)%nat then a :: h :: t else h :: ninsert a t end.
Fixpoint sort_desc (l : list nat) : list nat :=
  match l with [] => [] | a :: t => ninsert a (sort_desc t) end.
Definition del_desc {A} (idxs : list nat) (l : list A) : list A :=
  fold_left (fun l i => del i l) (sort_desc idxs) l.

(* ------------------------------------------------------------------ *)
(** * optimiser_with_one_pdl.py:300-328 local pruning. [S] stands for the tables held as
      Python lists (stacking sequences), [T] for those held as numpy arrays (lamination
      parameters, ply counts, objectives per panel) *)
Record tables_of (S T : Type) := { t_ss : list S; t_num : list T; t_obj : list Q }.
Arguments t_ss {S T}. Arguments t_num {S T}. Arguments t_obj {S T}.

Definition local_sentinel : Q := (- 6666 # 1)%Q.
Definition global_sentinel : Q := (6666 # 1)%Q.

(** [last]: level == n_plies_to_optimise - 1, where no local pruning takes place *)
Definition local_pruning {S T} (last : bool) (n_local node_limit : nat) (t : tables_of S T) : result (tables_of S T) :=
  if (negb last && (node_limit <? n_local)%nat)%bool then
    let v := lastn n_local (t_obj t) in
    do r <- mark argmax local_sentinel (n_local - node_limit) v;
    let to_del := map (fun i => i + (length (t_obj t) - n_local))%nat (fst r) in
    Ok {| t_ss := del_desc to_del (t_ss t); t_num := np_delete to_del (t_num t); t_obj := np_delete to_del (t_obj t) |}
  else Ok t.

(** lines 339-369 global pruning *)
Definition global_pruning {S T} (node_limit : nat) (t : tables_of S T) : result (tables_of S T) :=
  match t_obj t with
  | [] => Err (Raised NoNode)
  | _ =>
    if (node_limit <? length (t_obj t))%nat then
      do r <- mark argmin global_sentinel node_limit (t_obj t);
      let to_keep := map (fun x => Qeq_bool x global_sentinel) (snd r) in
      let to_del := map fst (filter (fun p => negb (snd p)) (combine (seq 0 (length to_keep)) to_keep)) in
      Ok {| t_ss := del_desc to_del (t_ss t); t_num := np_delete to_del (t_num t); t_obj := np_delete to_del (t_obj t) |}
    else Ok t
  end.

(* ------------------------------------------------------------------ *)
(** * optimiser.py:104-143, results.py:100-108: the loop over the initial ply-drop layouts *)

(** outcome of BELLA_optimiser_one_pdl for a layout: None, or objective and design *)
Definition outcome (D : Type) := option (Q * D).

(** the tables, initially NaN and the void design (results.py:18-104) *)
Definition results_tables (D : Type) := (list (option Q) * list D)%type.

(** lines 104-121; [fuel] is the number of layouts left. Line 117: abs(x).all() < 1e-10
    compares a truth value with 1e-10, so it holds exactly when x == 0 *)
Fixpoint outer_loop {D} (outcomes : list (outcome D)) (step : nat) (t : results_tables D) : results_tables D :=
  match outcomes with
  | [] => t
  | None :: rest => outer_loop rest (S step) t
  | Some (obj, d) :: rest =>
    let t' := (upd step (Some obj) (fst t), upd step d (snd t)) in
    if Qeq_bool obj 0 then t' else outer_loop rest (S step) t'
  end.

(** np.argmin with NaN: the first NaN wins *)
Fixpoint first_nan (l : list (option Q)) : option nat :=
  match l with [] => None | None :: _ => Some 0%nat | Some _ :: t => option_map S (first_nan t) end.
Definition values (l : list (option Q)) : list Q := map (fun o => match o with Some q => q | None => 0%Q end) l.
Definition argmin_nan (l : list (option Q)) : result nat :=
  match l with
  | [] => Err ValueError
  | _ => match first_nan l with Some i => Ok i | None => argmin (values l) end
  end.

(** lines 123-135: the reported design and objective *)
Definition bella_optimiser {D} (void : D) (outcomes : list (outcome D)) : result (D * option Q) :=
  let n := length outcomes in
  let t := outer_loop outcomes 0 (repeat None n, repeat void n) in
  do i <- argmin_nan (fst t);
  Ok (nth i (snd t) void, nth i (fst t) None).

(* ------------------------------------------------------------------ *)
(** * pdl_group.py:118-298 and pdl_ini.py:97-198: the stores of generated layouts.
      [same] is the comparison of two layouts; [n] is n_pdl (n_ini_ply_drops). *)
Record store (X : Type) := { st_perfect : list X; st_imperfect : list (Q * X) }.
Arguments st_perfect {X}. Arguments st_imperfect {X}.

(** max(p_spacing_imperfect) *)
Fixpoint qmax (a : Q) (l : list Q) : Q :=
  match l with [] => a | x :: t => qmax (if Qltb a x then x else a) t end.

(** pdl_group.py:217-262, pdl_ini.py:132-176: one generated layout x with penalty p *)
Definition record {X} (same : X -> X -> bool) (n : nat) (st : store X) (e : Q * X) : result (store X) :=
  let (p, x) := e in
  if Qeq_bool p 0 then
    if existsb (same x) (st_perfect st) then Ok st
    else Ok {| st_perfect := st_perfect st ++ [x]; st_imperfect := st_imperfect st |}
  else if (n <=? length (st_imperfect st))%nat then
    match map fst (st_imperfect st) with
    | [] => Err ValueError                       (* max of an empty array: n = 0 *)
    | a :: l =>
      if Qltb p (qmax a l) then
        if existsb (fun y => same x (snd y)) (st_imperfect st) then Ok st
        else
          do i <- argmin (a :: l);
          Ok {| st_perfect := st_perfect st; st_imperfect := upd i (p, x) (st_imperfect st) |}
      else Ok st
    end
  else if existsb (fun y => same x (snd y)) (st_imperfect st) then Ok st
  else Ok {| st_perfect := st_perfect st; st_imperfect := st_imperfect st ++ [(p, x)] |}.

(** the while loop: the layouts generated until [n] perfect ones are found or the time is
    over; the generated sequence [events] ends when the time is over *)
Fixpoint generate {X} (same : X -> X -> bool) (n : nat) (st : store X) (events : list (Q * X)) : result (store X) :=
  match events with
  | [] => Ok st
  | e :: rest =>
    if (n <=? length (st_perfect st))%nat then Ok st
    else do st' <- record same n st e; generate same n st' rest
  end.

(** lines 284-291 (pdl_ini.py:191-194): fill the missing places with the imperfect
    layouts of smallest penalty, overwriting the penalty of a used one with 10e6 *)
Fixpoint fill {X} (d : X) (missing : nat) (ps : list Q) (xs : list X) : result (list X) :=
  match missing with
  | O => Ok []
  | S m =>
    do i <- argmin ps;
    do r <- fill d m (upd i (10000000 # 1)%Q ps) xs;
    Ok (nth i xs d :: r)
  end.

Definition empty_store {X} : store X := {| st_perfect := []; st_imperfect := [] |}.

(** the layouts returned; [timeout]: the elapsed time of the last iteration reached the
    limit. When it did not, n perfect layouts were found (pdl_group.py:297) *)
Definition layouts {X} (same : X -> X -> bool) (d : X) (n : nat) (events : list (Q * X)) (timeout : bool) : result (list X) :=
  do st <- generate same n empty_store events;
  if timeout then
    match st_perfect st, st_imperfect st with
    | [], [] => Err (Raised NoDivision)
    | _, _ =>
      do f <- fill d (n - length (st_perfect st)) (map fst (st_imperfect st)) (map snd (st_imperfect st));
      Ok (st_perfect st ++ f)
    end
  else Ok (st_perfect st).
