(* LaylaSearch.v - model of src/LAYLA_V02/pruning.py, beam_search.py, outer_step_sym.py and
   outer_step_asym.py. The tables of the beam search always get the same operations (appended
   to, popped, cut at the same indices) and are held as one list of nodes. The objective and the
   penalties, the repair (src/RELAY) and the lamination parameters of a full stack (src/CLA,
   missing) are parameters; not_constraints is None. Floats are exact rationals. Definitions
   only. *)
From Verif Require Import Base Divers Constraints Guidelines PdlTools GroupFilters Pruning Moments Search Layla.
Local Open Scope Z_scope.

(** beam_search.py:92-101: the plies placed before the group, cut to the last (for the top: the
    first) n_contig ones when the contiguity or the disorientation rule is active *)
Definition simp_bot (c : cons) (ss_bot : list Z) : list Z :=
  if ((contig c || diso c) && (n_contig c <? length ss_bot)%nat)%bool then lastn (n_contig c) ss_bot else ss_bot.
Definition simp_top (c : cons) (ss_top : list Z) : list Z :=
  if ((contig c || diso c) && (n_contig c <? length ss_top)%nat)%bool then firstn (n_contig c) ss_top else ss_top.

(** the angle next to the new ply: the last one of the group, otherwise the last one before it *)
Definition filter_diso (c : cons) (o : option Z) (child : list Z) : list Z :=
  match o with None => child | Some y => filter (fun a => is_diso a y (delta_angle c)) child end.

(** pruning.py:119-163. A symmetric laminate or an odd level: bottom part; an even level: top
    part; the level n_plies - 1 of an asymmetric laminate: a further test against the group's
    own plies, IndexError if it has none *)
Definition l_prune_diso (c : cons) (n level : nat) (sb bot st top child : list Z) : result (list Z) :=
  let child :=
    if (sym c || Nat.odd level)%bool then
      filter_diso c (match bot with [] => py_get sb (-1) | _ => py_get bot (-1) end) child
    else filter_diso c (match top with [] => py_get st 0 | _ => py_get top 0 end) child in
  if (negb (sym c) && Nat.eqb (S level) n)%bool then
    filterR (fun a => do y <- (if Nat.even level then getR bot (-1) else getR top 0); Ok (is_diso a y (delta_angle c))) child
  else Ok child.

(** lines 206-212 and 240-246: the plies below the innermost one *)
Definition l_before (c : cons) (sb bot : list Z) : list Z :=
  let before := py_from (zlen bot - Z.of_nat (n_contig c)) bot in
  if (length before <? n_contig c)%nat then py_from (zlen sb - Z.of_nat (n_contig c) + zlen before) sb ++ before else before.

(** lines 170-266; the branch of lines 186-201 (asymmetric, even level, not the level
    n_plies - 1) can never be taken: its condition implies that of lines 171-174. Line 255 calls
    internal_contig2 with the unknown keyword new_stack *)
Definition l_prune_contig (c : cons) (n level : nat) (sb bot child : list Z) : result (list Z) :=
  let last := if sym c then Nat.eqb (S level) (n_half n) else Nat.eqb (S level) n in
  if negb last then
    filterR (fun a => do out <- external_contig c 1 1 (sb ++ bot) [[a]] None;
                      Ok (match fst out with [] => false | _ => true end)) child
  else if sym c then
    let before := l_before c sb bot in
    filterR (fun a => internal_contig2 (before ++ (if Nat.odd n then [a] else [a; a]) ++ rev before) c) child
  else filterR (fun _ => Err TypeError) child.

(** pruning.py:18-270; [n] targets.n_plies, [sb], [st] the simplified plies outside the group,
    [bot], [top] those of the group. The loops run from the last angle to the first one, which
    changes nothing: the kept angles stay in order and every angle raises the same exception if
    any does *)
Definition l_pruning (c : cons) (n level : nat) (sb bot st top child : list Z) : result (option (list Z)) :=
  let child := if (sym c && Nat.odd n && Nat.eqb level (n / 2))%bool then [0; 90] else child in
  let rule23 := (dam_tol c && (Nat.eqb (dam_tol_rule c) 2 || Nat.eqb (dam_tol_rule c) 3))%bool in
  if (dam_tol c && (Nat.eqb level 0 || (negb (sym c) && Nat.eqb (S level) n)))%bool then Ok (none_if_empty (filter is45 child))
  else if (rule23 && Nat.eqb level 1)%bool then
    do r <- filterR (second_ply c (getR bot 0)) child; Ok (none_if_empty r)
  else if (rule23 && Nat.eqb (S (S level)) n && negb (sym c))%bool then
    do r <- filterR (second_ply c (getR top (-1))) child; Ok (none_if_empty r)
  else
    do child <- (if diso c then l_prune_diso c n level sb bot st top child else Ok child);
    if (diso c && match child with [] => true | _ => false end)%bool then Ok None else
    do child <- (if contig c then l_prune_contig c n level sb bot child else Ok child);
    if (contig c && match child with [] => true | _ => false end)%bool then Ok None else Ok (Some child).

(* ------------------------------------------------------------------ *)
(** * beam_search.py *)

(** arrays.py max_arrays, of two numbers *)
Definition l_max (a b : Q) : Q := if Qle_bool a b then b else a.
(** an entry of ss_bot_tab, ss_top_tab, lampam_tab, ply_counts_tab, obj_const_tab, and for the
    last level of the last group of ss_final, with the success of its repair *)
Record lnode := { ln_bot : list Z; ln_top : list Z; ln_lampam : lampam; ln_counts : list Q; ln_obj : Q;
                  ln_final : list Z; ln_ok : bool }.

(** what the search uses: targets.n_plies, delta_lampams, the objective at a level (objectives with
    lampam_weightings[level]), the penalties (ten percent rule by ply counts; balance by ply counts
    at a level; in-plane and out-of-plane orthotropy by lamination parameters at a level), zero when
    the rule or its switch is off, the coefficients and the limits of the parameters *)
Record lproblem := {
  l_cons : cons; l_n : nat; l_rows : list (Z -> lampam);
  l_objective : nat -> lampam -> Q;
  l_pen_10 : list Q -> Q; l_pen_bal : nat -> list Q -> Q; l_pen_ipo : nat -> lampam -> Q; l_pen_oopo : nat -> lampam -> Q;
  l_c10 : Q; l_cbal : Q; l_coopo : Q;
  l_repair : list Z -> result (list Z * bool); l_lampam_of : list Z -> lampam; l_gate : list Z -> result unit;
  l_local : nat; l_local_final : nat; l_global : nat; l_global_p : nat }.

Section BEAM_SEARCH.
Variable pb : lproblem.
(** the arguments of beam_search *)
Variables (last_group : bool) (middle_ply group_size : nat) (ss_bot ss_top : list Z).
Notation c := (l_cons pb).

(** lines 193-196: the ply counts *)
Definition l_count (half : bool) (a : Z) (ct : list Q) : list Q :=
  match ind_angle (set_of_angles c) a with
  | Some k => upd k (nth k ct 0 + (if half then 1 # 2 else 1))%Q ct
  | None => ct
  end.

(** lines 172-176, 189-253: the child of a node for the angle [a] *)
Definition l_child (local : nat) (row : Z -> lampam) (nd : lnode) (a : Z) : lnode :=
  let top := (negb (sym c) && Nat.odd local)%bool in
  {| ln_bot := if top then ln_bot nd else ln_bot nd ++ [a];
     ln_top := if top then a :: ln_top nd else ln_top nd;
     ln_lampam := lampam_add (ln_lampam nd) (row a);
     ln_counts := l_count (negb (Nat.eqb middle_ply 0) && Nat.eqb (S local) group_size) a (ln_counts nd);
     ln_obj := 0; ln_final := []; ln_ok := false |}.

(** lines 285-298: the full stacking sequence *)
Definition l_full (nd : lnode) : list Z :=
  if sym c then
    let ss := ss_bot ++ ln_bot nd ++ rev (ln_bot nd) ++ rev ss_bot in
    if Nat.eqb middle_ply 0 then ss else del middle_ply ss
  else ss_bot ++ ln_bot nd ++ ln_top nd ++ ss_top.

(** lines 263-335: the unconstrained objective; at the last level of the last group after the
    repair of the full stack *)
Definition l_estimate (local level : nat) (nd : lnode) : result (lnode * Q) :=
  if (last_group && Nat.eqb (S local) group_size)%bool then
    let ss := l_full nd in
    do _ <- guard (negb (Nat.eqb (length ss) (l_n pb))) (Raised Other);
    do r <- l_repair pb ss;
    if snd r then
      do _ <- l_gate pb (fst r);
      let lp := l_lampam_of pb (fst r) in
      Ok ({| ln_bot := ln_bot nd; ln_top := ln_top nd; ln_lampam := lp; ln_counts := ln_counts nd; ln_obj := 0;
             ln_final := fst r; ln_ok := true |}, l_objective pb level lp)
    else
      Ok ({| ln_bot := ln_bot nd; ln_top := ln_top nd; ln_lampam := ln_lampam nd; ln_counts := ln_counts nd; ln_obj := 0;
             ln_final := fst r; ln_ok := false |}, (10000000000 # 1)%Q)
  else Ok (nd, l_objective pb level (ln_lampam nd)).

(** lines 228-233, 338-377: the constrained objective; [counts] are the ply counts left in the
    variable ply_counts by the loop over the children, those of the last one *)
Definition l_score (local level : nat) (counts : list Q) (p : lnode * Q) : lnode :=
  let nd := fst p in
  let p10 := if Nat.eqb (S local) group_size then l_pen_10 pb (ln_counts nd) else 0%Q in
  let pbal := l_max (l_pen_bal pb level counts) (l_pen_ipo pb level (ln_lampam nd)) in
  {| ln_bot := ln_bot nd; ln_top := ln_top nd; ln_lampam := ln_lampam nd; ln_counts := ln_counts nd;
     ln_obj := calc_obj_multi_ss (snd p) p10 pbal (l_pen_oopo pb level (ln_lampam nd)) (l_c10 pb) (l_cbal pb) (l_coopo pb);
     ln_final := ln_final nd; ln_ok := ln_ok nd |}.

(** lines 127-377: the children of a node, the last angle first *)
Definition l_children (local level : nat) (nd : lnode) : result (list lnode) :=
  do r <- l_pruning c (l_n pb) level (simp_bot c ss_bot) (ln_bot nd) (simp_top c ss_top) (ln_top nd) (set_of_angles c);
  match r with
  | None => Ok []
  | Some angs =>
    do _ <- guard (existsb (fun a => match ind_angle (set_of_angles c) a with Some _ => false | None => true end) angs) KeyError;
    do row <- get (l_rows pb) (Z.of_nat level);
    let kids := map (l_child local row nd) (rev angs) in
    do est <- mapM (l_estimate local level) kids;
    Ok (map (l_score local level (ln_counts (last kids nd))) est)
  end.

(** lines 389-412: the worst children are removed *)
Definition l_local_pruning (local n_local : nat) (nodes : list lnode) : result (list lnode) :=
  let limit := if (last_group && negb (Nat.eqb (S local) group_size))%bool then l_local_final pb else l_local pb in
  if (negb (Nat.eqb (S local) group_size) && (limit <? n_local)%nat)%bool then
    do r <- mark argmax local_sentinel (n_local - limit) (lastn n_local (map ln_obj nodes));
    Ok (np_delete (map (fun i => i + (length nodes - n_local))%nat (fst r)) nodes)
  else Ok nodes.

(** lines 414-461 *)
Definition l_keep_best (limit : nat) (nodes : list lnode) : result (list lnode) :=
  if (limit <? length nodes)%nat then
    do r <- mark argmin global_sentinel limit (map ln_obj nodes);
    let to_keep := map (fun x => Qeq_bool x global_sentinel) (snd r) in
    let to_del := map fst (filter (fun p => negb (snd p)) (List.combine (seq 0 (length to_keep)) to_keep)) in
    Ok (np_delete to_del nodes)
  else Ok nodes.
Definition l_global_pruning (local : nat) (nodes : list lnode) : result (list lnode) :=
  match nodes with
  | [] => Err (Raised NoNode)
  | _ =>
    if (last_group && Nat.eqb (S (S local)) group_size)%bool then l_keep_best (l_global_p pb) nodes
    else if negb (Nat.eqb (S local) group_size) then l_keep_best (l_global pb) nodes
    else Ok nodes
  end.

(** lines 119-412: "for el in range(obj_const_tab.size)" *)
Fixpoint l_expand (local level : nat) (k : nat) (nodes : list lnode) : result (list lnode) :=
  match k with
  | O => Ok nodes
  | S k' =>
    match nodes with
    | [] => Err (Raised NoNode)
    | nd :: rest =>
      do kids <- l_children local level nd;
      do nodes <- (match kids with [] => Ok rest | _ => l_local_pruning local (length kids) (rest ++ kids) end);
      l_expand local level k' nodes
    end
  end.

(** lines 114-461: "for local_level in range(group_size)", [k] levels left *)
Fixpoint l_levels (levels : list nat) (k local : nat) (nodes : list lnode) : result (list lnode) :=
  match k with
  | O => Ok nodes
  | S k' =>
    do level <- get levels (Z.of_nat local);
    do nodes <- l_expand local level (length nodes) nodes;
    do nodes <- l_global_pruning local nodes;
    l_levels levels k' (S local) nodes
  end.

(** lines 463-500: the best leaf *)
Definition l_best (nodes : list lnode) : result lnode :=
  do i <- argmin (map ln_obj nodes);
  do nd <- get nodes (Z.of_nat i);
  do _ <- guard (Qltb (9900000000 # 1) (ln_obj nd)) (Raised Other);
  Ok nd.

(** lines 103-112 *)
Definition l_start (lp : lampam) (counts : list Q) : lnode :=
  {| ln_bot := []; ln_top := []; ln_lampam := lp; ln_counts := counts; ln_obj := 0; ln_final := []; ln_ok := false |}.

(** the leaves and the best one *)
Definition l_beam_search (levels : list nat) (lp : lampam) (counts : list Q) : result (list lnode * lnode) :=
  do nodes <- l_levels levels group_size 0 [l_start lp counts];
  do nd <- l_best nodes;
  Ok (nodes, nd).
End BEAM_SEARCH.

(** beam_search.py:308-320, 465-473: n_designs_last_level, n_designs_repaired,
    n_designs_repaired_unique *)
Definition l_statistics (leaves : list lnode) : nat * nat * nat :=
  (length leaves, length (filter ln_ok leaves),
   length (nodup (list_eq_dec Z.eq_dec) (map ln_final (filter (fun nd => Qltb (ln_obj nd) (10000000000 # 1)) leaves)))).

(* ------------------------------------------------------------------ *)
(** * outer_step_sym.py, outer_step_asym.py *)

Fixpoint lampam_sum (l : list lampam) : lampam :=
  match l with [] => lampam_zero | x :: r => lampam_add x (lampam_sum r) end.
Definition lampam_sub (a b : lampam) : lampam := fun i => (a i - b i)%Q.

(** the plies of a group below and above the mid-surface join the outer ones *)
Definition l_middle (sym : bool) (n : nat) : nat := middle_ply_index sym n.

(** lines 66-126: "for inner_step in range(n_groups)": the best leaf of the last group *)
Fixpoint l_groups (pb : lproblem) (groups : list (list nat * Z * lampam)) (lp : lampam) (counts : list Q) (ss_bot ss_top : list Z)
    : result (list lnode * lnode) :=
  match groups with
  | [] => Err Unbound
  | [(levels, size, assumed)] =>
    l_beam_search pb true (l_middle (sym (l_cons pb)) (l_n pb)) (Z.to_nat size) ss_bot ss_top levels (lampam_sub lp assumed) counts
  | (levels, size, assumed) :: rest =>
    do r <- l_beam_search pb false 0 (Z.to_nat size) ss_bot ss_top levels (lampam_sub lp assumed) counts;
    let nd := snd r in
    l_groups pb rest (ln_lampam nd) (ln_counts nd) (ss_bot ++ ln_bot nd) (ln_top nd ++ ss_top)
  end.

(** lines 144-151: the ply counts of the result *)
Definition l_full_counts (pb : lproblem) (ss : list Z) : result (list Q) :=
  fold_left (fun (acc : result (list Q)) (a : Z) =>
    do ct <- acc;
    match ind_angle (set_of_angles (l_cons pb)) a with
    | Some k => Ok (upd k (nth k ct 0 + 1)%Q ct)
    | None => Err KeyError
    end) ss (Ok (repeat 0%Q (length (set_of_angles (l_cons pb))))).

(** the penalties of the full laminate and what the end of the step needs: whether the orthotropy
    attributes that LAYLA's constraints do not have are read (lines 190-195) *)
Record lfinal := {
  f_objective : lampam -> Q; f_pen_10 : list Q -> Q; f_pen_bal : list Q -> Q; f_pen_ipo : lampam -> Q; f_pen_oopo : lampam -> Q }.

(** lines 128-201; f_pen_10 is zero without the rule, f_pen_bal without ipo or its switch.
    constraints.penalty_ipo_switch and constraints.penalty_bal_switch do not exist: AttributeError
    (Raised Other) *)
Definition l_outer_step (pb : lproblem) (fin : lfinal) (levels : list (list nat)) (sizes : list Z) (assumed : list lampam)
    : result (list Z * lampam * Q * (nat * nat * nat)) :=
  do r <- l_groups pb (List.combine (List.combine levels sizes) assumed) (lampam_sum assumed)
            (repeat 0%Q (length (set_of_angles (l_cons pb)))) [] [];
  let nd := snd r in
  let ss := ln_final nd in
  let lp := ln_lampam nd in
  do counts <- l_full_counts pb ss;
  let p10 := f_pen_10 fin counts in
  let ppc := f_pen_bal fin counts in
  let pipo := f_pen_ipo fin lp in
  let obj := calc_obj_multi_ss (f_objective fin lp) p10 (l_max ppc pipo) (f_pen_oopo fin lp) (l_c10 pb) (l_cbal pb) (l_coopo pb) in
  let nz := fun x : Q => negb (Qeq_bool x 0) in
  do obj <- (if (rule_10_percent (l_cons pb) && nz p10)%bool then Ok (10000000000 # 1)%Q
             else if (ipo (l_cons pb) && nz pipo)%bool then Err (Raised Other)
             else if (ipo (l_cons pb) && nz ppc)%bool then Err (Raised Other)
             else Ok obj);
  Ok (ss, lp, obj, l_statistics (fst r)).
