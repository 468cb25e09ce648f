(* Pruning.v - model of src/BELLA/pruning.py. Definitions only. *)
From Verif Require Import Base Constraints Guidelines PdlTools GroupFilters.
Local Open Scope Z_scope.

(** "if child_ss.size == 0: return None" / "return child_ss" *)
Definition none_if_empty (l : list Z) : option (list Z) := match l with [] => None | _ => Some l end.

(** mother_ss[i]: IndexError when out of range *)
Definition getR (l : list Z) (i : Z) : result Z := match py_get l i with Some x => Ok x | None => Err IndexError end.

(** l[s:] with Python's negative start *)
Definition py_from (s : Z) (l : list Z) : list Z :=
  skipn (Z.to_nat (if s <? 0 then Z.max 0 (s + zlen l) else s)) l.

(** pruning.py:75-90 and 97-112: the test of an angle for the second ply from the outside,
    [out] is the outermost ply *)
Definition second_ply (c : cons) (out : result Z) (a : Z) : result bool :=
  if Nat.eqb (dam_tol_rule c) 2 then do x <- out; Ok (a =? - x)
  else if negb (is45 a) then Ok false
  else if (diso c && negb (is_diso (-45) 45 (delta_angle c)))%bool then do x <- out; Ok (a =? - x)
  else Ok true.

(** pruning.py:121-153 *)
Definition prune_diso (c : cons) (last : bool) (level : nat) (bot top child : list Z) : result (list Z) :=
  if diso c then
    let child :=
      if (sym c || Nat.even level)%bool then
        match py_get bot (-1) with None => child | Some y => filter (fun a => is_diso a y (delta_angle c)) child end
      else
        match py_get top 0 with None => child | Some y => filter (fun a => is_diso a y (delta_angle c)) child end in
    if (negb (sym c) && last)%bool then
      filterR (fun a => do y <- (if Nat.even level then getR top 0 else getR bot (-1)); Ok (is_diso a y (delta_angle c))) child
    else Ok child
  else Ok child.

(** pruning.py:158-211; line 204 calls internal_contig2 with the unknown keyword new_stack *)
Definition prune_contig (c : cons) (last has_middle : bool) (level : nat) (bot child : list Z) : result (list Z) :=
  if contig c then
    if negb last then
      if (sym c || Nat.even level)%bool then
        filterR (fun a => do out <- external_contig c 1 1 bot [[a]] None;
                          Ok (match fst out with [] => false | _ => true end)) child
      else Ok child
    else if sym c then
      let before := py_from (zlen bot - Z.of_nat (n_contig c)) bot in
      filterR (fun a => internal_contig2 (before ++ (if has_middle then [a] else [a; a]) ++ rev before) c) child
    else filterR (fun _ => Err TypeError) child
  else Ok child.

(** pruning.py:17-213; [level] and [n] = n_plies_to_optimise as in the code. The loops run
    from the last angle to the first one, which changes nothing: the kept angles stay in
    order and every angle raises the same exception if any does. *)
Definition pruning (c : cons) (n level : nat) (has_middle : bool) (bot top child : list Z) : result (option (list Z)) :=
  let last := Nat.eqb (S level) n in
  let child := if (sym c && last && has_middle)%bool then [0; 90] else child in
  let rule23 := (dam_tol c && (Nat.eqb (dam_tol_rule c) 2 || Nat.eqb (dam_tol_rule c) 3))%bool in
  if (dam_tol c && (Nat.eqb level 0 || (negb (sym c) && last)))%bool then Ok (none_if_empty (filter is45 child))
  else if (rule23 && Nat.eqb level 1)%bool then
    do r <- filterR (second_ply c (getR bot 0)) child; Ok (none_if_empty r)
  else if (rule23 && Nat.eqb (S (S level)) n && negb (sym c))%bool then
    do r <- filterR (second_ply c (getR top (-1))) child; Ok (none_if_empty r)
  else
    do child <- prune_diso c last level bot top child;
    if (diso c && match child with [] => true | _ => false end)%bool then Ok None else
    do child <- prune_contig c last has_middle level bot child;
    if (contig c && match child with [] => true | _ => false end)%bool then Ok None else Ok (Some child).
