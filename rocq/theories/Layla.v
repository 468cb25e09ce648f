(* Layla.v - model of the single-laminate optimiser src/LAYLA_V02: divide_laminate_sym.py,
   divide_laminate_asym.py, ply_order.py, moment_of_areas.py, objectives.py, targets.py,
   Parameters.weights_calculation (parameters.py) and the outer loop of optimiser.py. The
   search of one outer step (outer_step_sym/asym, which import a function that does not exist)
   and the lamination parameters of src/CLA (missing) are parameters of the outer loop. Floats
   are exact rationals; NaN is None. Definitions only. *)
From Verif Require Import Base Divers Constraints Guidelines Divide Moments Search Panel.
Local Open Scope Z_scope.

(* ------------------------------------------------------------------ *)
(** * divide_laminate_sym.py:14-128, divide_laminate_asym.py:14-130
    The division of one laminate is that of divide_panels.py without covering plies
    ([divide_thickest]); when it falls out of the loop (no group) the variable is unbound.
    The positions are computed before the middle ply joins the last group *)
Definition divide_laminate (sym : bool) (gmin : Z) (gmax : list Z) (step n : Z) : result (list Z * list Z * Z) :=
  do gm <- get gmax step;
  do nl <- divide_thickest sym {| g_min := gmin; g_max := gm |} n;
  let (k, l) := nl in
  let p := if sym then first_plies 0 l else asym_first_plies 0 l in
  let l := if (sym && (n mod 2 =? 1))%bool then upd (length l - 1) (nth (length l - 1) l 0 + 1) l else l in
  Ok (l, p, k).

(* ------------------------------------------------------------------ *)
(** * ply_order.py:38-60 calc_levels (calc_ply_order, 12-36, is [ply_order] of Moments.v) *)

(** lines 56-58: the next [k] entries of ply_order from [i] on *)
Fixpoint take_levels (order : list nat) (i : Z) (k : nat) : result (list nat) :=
  match k with
  | O => Ok []
  | S k' => do x <- get order i; do r <- take_levels order (i + 1) k'; Ok (x :: r)
  end.

(** lines 54-58: one list per group; [i] is ind_all_plies, which only moves forward *)
Fixpoint levels_from (order : list nat) (i : Z) (sizes : list Z) : result (list (list nat)) :=
  match sizes with
  | [] => Ok []
  | s :: rest =>
    do g <- take_levels order i (Z.to_nat s);
    do r <- levels_from order (i + Z.max 0 s) rest;
    Ok (g :: r)
  end.

Definition calc_levels (order : list nat) (sizes : list Z) : result (list (list nat)) := levels_from order 0 sizes.

(* ------------------------------------------------------------------ *)
(** * moment_of_areas.py:12-112 calc_mom_of_areas *)

Definition mom0 : mom := {| m_area := 0; m_first := 0; m_second := 0 |}.
Definition mom_add (a b : mom) : mom :=
  {| m_area := (m_area a + m_area b)%Q; m_first := (m_first a + m_first b)%Q; m_second := (m_second a + m_second b)%Q |}.
Definition mom_abs (a : mom) : mom :=
  {| m_area := Qabs (m_area a); m_first := Qabs (m_first a); m_second := Qabs (m_second a) |}.

(** lines 41-52: symmetric laminates (here the first moments are not set to zero); the
    asymmetric rows, lines 77-86, are those of BELLA *)
Definition row_sym (n i : nat) : mom :=
  let t := pos_top_sym n i in let b := pos n i in
  {| m_area := (t - b)%Q; m_first := (sq t - sq b)%Q; m_second := (cube t - cube b)%Q |}.
Definition ply_moments (sym : bool) (n : nat) : list mom :=
  if sym then map (row_sym n) (seq 0 (n_half n)) else map (mom_asym n) (ply_order false n).

(** lines 60-63, 94: cummul[ply_index:] += abs(mom_areas[ply_index]) for the rows [ms];
    the argument [acc] is the array from ply_index on *)
Fixpoint cummul (ms : list mom) (acc : list mom) : list mom :=
  match ms, acc with
  | m :: ms', _ :: _ =>
    match map (fun a => mom_add a (mom_abs m)) acc with
    | a :: acc' => a :: cummul ms' acc'
    | [] => []
    end
  | _, _ => acc
  end.

(** lines 64-73, 96-104: the plies are counted; when the size of the group is reached its
    moments are written. The result: group_mom_areas and the sum of the unfinished group *)
Fixpoint group_moments (sizes : list Z) (ms : list mom) (counted ind : Z) (acc : mom) (out : list mom) : result (list mom * mom) :=
  match ms with
  | [] => Ok (out, acc)
  | m :: ms' =>
    let counted := counted + 1 in
    let acc := mom_add acc (mom_abs m) in
    do s <- get sizes ind;
    if counted =? s then group_moments sizes ms' 0 (ind + 1) mom0 (upd (Z.to_nat ind) acc out)
    else group_moments sizes ms' counted ind acc out
  end.

(** lines 106-109: the moments of the last ply of an asymmetric laminate *)
Definition last_moments (n i : nat) : mom :=
  let t := pos n (S i) in let b := pos n i in
  {| m_area := ((Qabs t + Qabs b) / (2 # 1))%Q; m_first := ((Qabs (sq t) + Qabs (sq b)) / (2 # 1))%Q;
     m_second := ((Qabs (cube t) + Qabs (cube b)) / (2 # 1))%Q |}.

(** l[-1] += x *)
Definition add_last (x : mom) (l : list mom) : result (list mom) :=
  match l with [] => Err IndexError | _ => Ok (upd (length l - 1) (mom_add (nth (length l - 1) l mom0) x) l) end.

(** (mom_areas, cummul_mom_areas, group_mom_areas), for n >= 1 plies *)
Definition calc_mom_of_areas (sym : bool) (n : nat) (sizes : list Z) : result (list mom * list mom * list mom) :=
  let rows := ply_moments sym n in
  let zeros := repeat mom0 (length sizes) in
  if sym then
    do ga <- group_moments sizes rows 0 0 mom0 zeros;
    Ok (rows, cummul rows (repeat mom0 (length rows)), fst ga)
  else
    let first := firstn (n - 1) rows in
    do ga <- group_moments sizes first 0 0 mom0 zeros;
    let x := last_moments n (nth (n - 1) (ply_order false n) 0%nat) in
    do cum <- add_last x (cummul first (repeat mom0 (length rows)));
    do grp <- add_last (mom_add (snd ga) x) (fst ga);
    Ok (rows, cum, grp).

(* ------------------------------------------------------------------ *)
(** * optimiser.py:88-96: the weightings at each level; [w] is lampam_weightings_final. A row of
      zeros gives NaN *)
Definition moment_of (c : nat) (m : mom) : Q :=
  if (c <? 4)%nat then m_area m else if (c <? 8)%nat then m_first m else m_second m.
Definition weighted_row (w : list Q) (m : mom) : list Q :=
  map (fun c => (nth c w 0 * moment_of c m)%Q) (seq 0 12).
Definition normalised (l : list Q) : option (list Q) :=
  if Qeq_bool (sumQ l) 0 then None else Some (map (fun x => x / sumQ l)%Q l).
Definition level_weightings (w : list Q) (cum : list mom) : list (option (list Q)) :=
  map (fun m => normalised (weighted_row w m)) cum.

(** optimiser.py:98-117: the partial lamination parameters of the plies *)
Definition partial_lampams (sym : bool) (cos_sin : Z -> nat -> Q) (n : nat) : list (Z -> lampam) :=
  map (ply_lampam sym cos_sin) (ply_moments sym n).

(** optimiser.py:206-214: the assumed lamination parameters of each group; [angles] are the keys
    of ind_angles_dict *)
Fixpoint assumed_of (angles : list Z) (rows : list (Z -> lampam)) (ss : list Z) (levels : list nat) (acc : lampam) : result lampam :=
  match levels with
  | [] => Ok acc
  | l :: rest =>
    do a <- get ss (Z.of_nat l);
    do _ <- guard (negb (memb a angles)) KeyError;
    do r <- get rows (Z.of_nat l);
    assumed_of angles rows ss rest (lampam_add acc (r a))
  end.
Definition lampam_assumed (angles : list Z) (rows : list (Z -> lampam)) (ss : list Z) (levels : list (list nat)) : result (list lampam) :=
  mapM (fun ls => assumed_of angles rows ss ls lampam_zero) levels.

(* ------------------------------------------------------------------ *)
(** * objectives.py:10-50 objectives for one laminate; the arrays have the same size *)
Definition objective_term (type : Z) (x : Q) : Q := if type =? 2 then (x * x)%Q else Qabs x.
Definition layla_objective (type : Z) (lp target w : list Q) : result Q :=
  if ((type =? 2) || (type =? 1))%bool then
    if (Nat.eqb (length lp) (length target) && Nat.eqb (length w) (length lp))%bool then
      Ok (sumQ (map (fun p => snd p * objective_term type (fst (fst p) - snd (fst p)))%Q
                    (List.combine (List.combine lp target) w)))
    else Err ValueError
  else Err (Raised Other).

(** objectives.py:53-78 calc_obj_multi_ss *)
Definition calc_obj_multi_ss (obj p10 pbal poopo c10 cbal coopo : Q) : Q :=
  (obj * (1 + c10 * p10) * (1 + cbal * pbal) * (1 + coopo * poopo))%Q.

(** targets.py:22-38 filter_target_lampams, on an array of 12 *)
Definition layla_filter_target (sym ipo oopo : bool) (t : list Q) : result (list Q) :=
  let t := if sym then zero_slice 4 8 t else t in
  do t <- (if ipo then do t <- set_at 2 0 t; set_at 3 0 t else Ok t);
  if oopo then do t <- set_at 10 0 t; set_at 11 0 t else Ok t.

(* ------------------------------------------------------------------ *)
(** * parameters.py:300-359 weights_calculation; [sens] first_level_sensitivities, [tbo]
      lampam_to_be_optimised, both of size 12; [std]: the angles are exactly 0, 45, -45, 90.
      Ok None: NaN *)
Definition products (a b : list Q) : list Q := map (fun p => fst p * snd p)%Q (List.combine a b).
Definition cleared_sensitivities (sym std ipo oopo : bool) (s : list Q) : result (list Q) :=
  let s := if sym then zero_slice 4 8 s else s in
  do s <- (if std then do s <- set_at 3 0 s; do s <- set_at 7 0 s; set_at 11 0 s else Ok s);
  do s <- (if ipo then do s <- set_at 2 0 s; set_at 3 0 s else Ok s);
  if oopo then do s <- set_at 10 0 s; set_at 11 0 s else Ok s.

(** lines 335-356; [m] is the mean of the non-zero sensitivities *)
Definition orthotropy_sensitivities (std ipo ipo_switch oopo : bool) (ci co m : Q) (s : list Q) : result (list Q) :=
  if (ipo && ipo_switch && oopo)%bool then
    if std then do s <- set_at 2 (m * ci) s; set_at 10 (m * co) s
    else do s <- set_at 2 (m * ci) s; do s <- set_at 3 (m * ci) s; do s <- set_at 10 (m * co) s; set_at 11 (m * co) s
  else if (ipo && ipo_switch)%bool then
    if std then do s <- set_at 2 (m * ci) s; set_at 10 (m * co) s
    else do s <- set_at 2 (m * ci) s; set_at 3 (m * ci) s
  else if oopo then
    if std then set_at 10 (m * co) s else do s <- set_at 10 (m * co) s; set_at 11 (m * co) s
  else Ok s.

Definition weights_calculation (sym std ipo ipo_switch oopo : bool) (ci co : Q) (sens tbo : list Q)
    : result (option (list Q) * list Q) :=
  let s := products sens tbo in
  do _ <- guard (Qeq_bool (sumQ s) 0) (Raised BadDefinition);
  let s := map (fun x => x / sumQ s)%Q s in
  let ini := s in
  do s <- cleared_sensitivities sym std ipo oopo s;
  match average (non_zero s) with
  | None =>
    (* the mean is NaN: written into the weightings it makes the sum NaN; not written, the
       weightings are 0/0 *)
    Ok (None, ini)
  | Some m =>
    do s <- orthotropy_sensitivities std ipo ipo_switch oopo ci co m s;
    Ok (normalised s, ini)
  end.

(* ------------------------------------------------------------------ *)
(** * optimiser.py:37-228 LAYLA_optimiser, the outer loop *)

(** what outer_step_sym/asym returns; None is NaN *)
Record outer := { o_ss : list Z; o_lampam : list Q; o_obj : option Q }.

Section Outer.
(** [search step sizes levels assumed]: one outer step; [lampam_of]: src/CLA; [gate]:
    check_lay_up_rules *)
Variable search : nat -> list Z -> list (list nat) -> list lampam -> result outer.
Variable lampam_of : list Z -> list Q.
Variable gate : list Z -> result unit.
Variables (sym : bool) (angles : list Z) (cos_sin : Z -> nat -> Q) (gmin : Z) (gmax : list Z) (n : nat) (n_outer_step : nat).

(** sum(abs(a - b)) *)
Definition distance (a b : list Q) : Q := sumQ (map (fun p => Qabs (fst p - snd p)) (List.combine a b)).
Definition small (o : option Q) : bool := match o with Some q => Qltb q (1 # 10000000000) | None => false end.
Definition same_stack (a b : list Z) : bool := if list_eq_dec Z.eq_dec a b then true else false.

(** lines 186-204: the partition for the next step *)
Definition repartition (step : nat) (sizes : list Z) (levels : list (list nat)) : result (list Z * list (list nat)) :=
  if (S step =? n_outer_step)%nat then Ok (sizes, levels)
  else
    do a <- get gmax (Z.of_nat step);
    do b <- get gmax (Z.of_nat (S step));
    if a =? b then Ok (sizes, levels)
    else
      do d <- divide_laminate sym gmin gmax (Z.of_nat (S step)) (Z.of_nat n);
      let '(sizes, _, _) := d in
      do _ <- calc_mom_of_areas sym n sizes;
      do levels <- calc_levels (ply_order sym n) sizes;
      Ok (sizes, levels).

(** lines 124-214; [k]: outer steps left; [tab]: the outputs of the steps performed. np.allclose
    of two stacks of integer angles is their equality *)
Fixpoint outer_loop (k : nat) (step : nat) (sizes : list Z) (levels : list (list nat)) (assumed : list lampam) (tab : list outer)
    : result (list outer) :=
  match k with
  | O => Ok tab
  | S k' =>
    do o <- search step sizes levels assumed;
    do _ <- gate (o_ss o);
    do _ <- guard (Qltb (1 # 10000000000) (distance (o_lampam o) (lampam_of (o_ss o)))) (Raised Other);
    do _ <- guard (negb (length (o_ss o) =? n)%nat) (Raised WrongPlyCount);
    let again := match tab with [] => false | _ => same_stack (o_ss o) (o_ss (last tab o)) end in
    if (again || small (o_obj o))%bool then Ok (tab ++ [o])
    else
      do sl <- repartition step sizes levels;
      do assumed <- lampam_assumed angles (partial_lampams sym cos_sin n) (o_ss o) (snd sl);
      outer_loop k' (S step) (fst sl) (snd sl) assumed (tab ++ [o])
  end.

(** np.nanargmin of the objectives of the steps: the first of the smallest values that are
    numbers *)
Fixpoint nanargmin_from (best : option (Q * nat)) (i : nat) (l : list (option Q)) : option (Q * nat) :=
  match l with
  | [] => best
  | None :: t => nanargmin_from best (S i) t
  | Some q :: t =>
    match best with
    | Some (b, j) => if Qltb q b then nanargmin_from (Some (q, i)) (S i) t else nanargmin_from best (S i) t
    | None => nanargmin_from (Some (q, i)) (S i) t
    end
  end.

Record layla_result := { r_ss : list Z; r_lampam : list Q; r_obj : Q; r_best_step : nat; r_steps : nat }.

(** lines 61-228 *)
Definition layla_optimiser : result layla_result :=
  do d <- divide_laminate sym gmin gmax 0 (Z.of_nat n);
  let '(sizes, _, _) := d in
  do levels <- calc_levels (ply_order sym n) sizes;
  do _ <- calc_mom_of_areas sym n sizes;
  do tab <- outer_loop n_outer_step 0 sizes levels (map (fun _ => lampam_zero) sizes) [];
  match nanargmin_from None 0 (map o_obj tab) with
  | None => Err (Raised Other)
  | Some (q, i) =>
    match nth_error tab i with
    | None => Err IndexError
    | Some o => Ok {| r_ss := o_ss o; r_lampam := o_lampam o; r_obj := q; r_best_step := i + 1; r_steps := length tab |}
    end
  end.
End Outer.
