(* LaylaBroken.v - model of the part of the search of LAYLA that is asked to break the 10% rule
   (the argument not_constraints): src/LAYLA_V02/beam_search.py 75-90, 189-255 and
   outer_step_sym.py 66-126. The rest of the search is that of LaylaSearch.v. Floats are exact
   rationals. Definitions only. *)
From Verif Require Import Base Divers Constraints Guidelines PdlTools Moments Search Layla LaylaSearch.
From Coq Require Import Qround.
Local Open Scope Z_scope.

(** beam_search.py:75-90: the limit for the drawn number; [ask] is not_constraints *)
Definition asked_percent (ask : cons) (drawn : Z) : Q :=
  if drawn =? 0 then percent_0 ask else if drawn =? 1 then percent_90 ask else if drawn =? 2 then percent_45 ask
  else if drawn =? 3 then percent_135 ask else percent_45_135 ask.
Definition asked_plies (c ask : cons) (n : nat) (drawn : Z) : Z :=
  let lim := Qceiling (asked_percent ask drawn * inject_Z (Z.of_nat n)) in
  if sym c then Qceiling (inject_Z lim / 2) else lim.

(** constraints.index0, index90, index45, index135: not set for an angle that is not in the set
    (src/LAYLA_V02/constraints.py 217-229): AttributeError *)
Definition counts_of (c : cons) (counts : list Q) (a : Z) : result Q :=
  match ind_angle (set_of_angles c) a with Some k => Ok (nth k counts 0%Q) | None => Err (Raised Other) end.

(** beam_search.py:198-216: whether a child with these ply counts stays; outer_step_sym.py:68 draws
    a number from 0 to 4 *)
Definition stays (c ask : cons) (n : nat) (drawn : Z) (counts : list Q) : result bool :=
  do x <- (if drawn =? 0 then counts_of c counts 0
           else if drawn =? 1 then counts_of c counts 90
           else if drawn =? 2 then counts_of c counts 45
           else if drawn =? 3 then counts_of c counts (-45)
           else do x <- counts_of c counts 45; do y <- counts_of c counts (-45); Ok (x + y)%Q);
  Ok (negb (Qle_bool (inject_Z (asked_plies c ask n drawn)) (x + 1))).

Section BEAM_SEARCH.
Variable pb : lproblem.
Variables (last_group : bool) (middle_ply group_size : nat) (ss_bot ss_top : list Z).
Variable keep : list Q -> result bool.
Notation c := (l_cons pb).

(** beam_search.py:127-377: the children that stay, the last angle first. When none stays
    (n_solution == 0) nothing is added. The ply counts left by the loop over the children are those
    of its last child, which need not have stayed *)
Definition b_children (local level : nat) (nd : lnode) : result (list lnode) :=
  do r <- l_pruning c (l_n pb) level (simp_bot c ss_bot) (ln_bot nd) (simp_top c ss_top) (ln_top nd) (set_of_angles c);
  match r with
  | None => Ok []
  | Some angs =>
    do _ <- guard (existsb (fun a => match ind_angle (set_of_angles c) a with Some _ => false | None => true end) angs) KeyError;
    do row <- get (l_rows pb) (Z.of_nat level);
    let kids := map (l_child pb middle_ply group_size local row nd) (rev angs) in
    do staying <- filterR (fun kid => keep (ln_counts kid)) kids;
    do est <- mapM (l_estimate pb last_group middle_ply group_size ss_bot ss_top local level) staying;
    Ok (map (l_score pb group_size local level (ln_counts (last kids nd))) est)
  end.

(** beam_search.py:119-412 *)
Fixpoint b_expand (local level : nat) (k : nat) (nodes : list lnode) : result (list lnode) :=
  match k with
  | O => Ok nodes
  | S k' =>
    match nodes with
    | [] => Err (Raised NoNode)
    | nd :: rest =>
      do kids <- b_children local level nd;
      do nodes <- (match kids with [] => Ok rest | _ => l_local_pruning pb last_group group_size local (length kids) (rest ++ kids) end);
      b_expand local level k' nodes
    end
  end.

(** beam_search.py:114-461 *)
Fixpoint b_levels (levels : list nat) (k local : nat) (nodes : list lnode) : result (list lnode) :=
  match k with
  | O => Ok nodes
  | S k' =>
    do level <- get levels (Z.of_nat local);
    do nodes <- b_expand local level (length nodes) nodes;
    do nodes <- l_global_pruning pb last_group group_size local nodes;
    b_levels levels k' (S local) nodes
  end.
Definition b_beam_search (levels : list nat) (lp : lampam) (counts : list Q) : result (list lnode * lnode) :=
  do nodes <- b_levels levels group_size 0 [l_start lp counts];
  do nd <- l_best nodes;
  Ok (nodes, nd).
End BEAM_SEARCH.

(** outer_step_sym.py:74-126 *)
Fixpoint b_groups (pb : lproblem) (keep : list Q -> result bool) (groups : list (list nat * Z * lampam)) (lp : lampam) (counts : list Q) (ss_bot ss_top : list Z)
    : result (list lnode * lnode) :=
  match groups with
  | [] => Err Unbound
  | [(levels, size, assumed)] =>
    b_beam_search pb true (l_middle (sym (l_cons pb)) (l_n pb)) (Z.to_nat size) ss_bot ss_top keep levels (lampam_sub lp assumed) counts
  | (levels, size, assumed) :: rest =>
    do r <- b_beam_search pb false 0 (Z.to_nat size) ss_bot ss_top keep levels (lampam_sub lp assumed) counts;
    let nd := snd r in
    b_groups pb keep rest (ln_lampam nd) (ln_counts nd) (ss_bot ++ ln_bot nd) (ln_top nd ++ ss_top)
  end.

(** outer_step_sym.py:60-126, up to the best leaf of the last group; [ask] is not_constraints, None
    or without the 10% rule: the search of LaylaSearch.v; [drawn] is random.randint(0, 4).
    optimiser.py:55-59 refuses not_constraints for a laminate that is not symmetric *)
Definition b_step (pb : lproblem) (ask : option cons) (drawn : Z) (levels : list (list nat)) (sizes : list Z) (assumed : list lampam)
    : result (list lnode * lnode) :=
  let groups := List.combine (List.combine levels sizes) assumed in
  let counts := repeat 0%Q (length (set_of_angles (l_cons pb))) in
  match ask with
  | None => l_groups pb groups (lampam_sum assumed) counts [] []
  | Some ask =>
    do _ <- guard (negb (sym (l_cons pb))) (Raised Other);
    if rule_10_percent ask then b_groups pb (stays (l_cons pb) ask (l_n pb) drawn) groups (lampam_sum assumed) counts [] []
    else l_groups pb groups (lampam_sum assumed) counts [] []
  end.
