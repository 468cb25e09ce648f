(* SavedSetup.v - model of the set-up sheets: src/BELLA/save_set_up.py (save_constraints_BELLA,
   save_objective_function_BELLA, save_materials, save_multipanel), of src/BELLA/obj_function.py,
   and of the scripts that read the sheets back (run_BELLA_from_input_file_SST_1.py 44-94 and
   182-245; the other run_BELLA_from_input_file_*.py do the same).
   A sheet written once to a new file: a list of labelled cells (Constraints, Materials, Objective
   function: one row per label) or a table with one row per panel (Panels). Excel is taken to give
   back the numbers, truth values and words it was given; an empty string is a blank cell. Floats
   are exact rationals. Definitions only. *)
From Coq Require Import String.
From Verif Require Import Base Constraints Guidelines Stiffness Panel Objectives.
Local Open Scope Z_scope.

(** a cell: truth value, number, integers separated by spaces (at least one), other text, nothing *)
Inductive cell := CBool (b : bool) | CNum (q : Q) | CInts (l : list Z) | CText (s : string) | CBlank.
Definition labelled := list (string * cell).

(** data[label].iloc[0] *)
Fixpoint lookup (t : labelled) (label : string) : result cell :=
  match t with [] => Err KeyError | (n, x) :: r => if String.eqb n label then Ok x else lookup r label end.

(** a truth value: the constructor of Constraints tests isinstance(x, bool) *)
Definition to_bool (x : cell) : result bool := match x with CBool b => Ok b | _ => Err (Raised BadDefinition) end.
(** float(x), or a number used as it is *)
Definition to_num (x : cell) : result Q := match x with CNum q => Ok q | _ => Err ValueError end.
(** int(x) *)
Definition to_int (x : cell) : result Z := match x with CNum q => Ok (Z.quot (Qnum q) (Zpos (Qden q))) | _ => Err ValueError end.
(** ' '.join(map(str, l)) *)
Definition join (l : list Z) : cell := match l with [] => CBlank | _ => CInts l end.
(** np.array(x.split(" "), int): a number or a blank (NaN) has no split *)
Definition split (x : cell) : result (list Z) :=
  match x with CInts l => Ok l | CText _ => Err ValueError | _ => Err (Raised Other) end.

(* ------------------------------------------------------------------ *)
(** * Sheet [Constraints] *)

(** 1e10, constraints.py 133 *)
Definition unlimited : Q := 10000000000%Q.
Definition num_of_nat (n : nat) : Q := inject_Z (Z.of_nat n).

(** save_set_up.py 197-246 save_constraints_BELLA *)
Definition save_constraints (c : cons) : labelled :=
  let pct (x : Q) := CNum (if rule_10_percent c then (x * 100)%Q else 0%Q) in
  [ ("symmetry", CBool (sym c));
    ("balance", CBool (bal c));
    ("out-of-plane orthotropy", CBool (oopo c));
    ("damage tolerance", CBool (dam_tol c));
    ("dam_tol_rule", CNum (num_of_nat (dam_tol_rule c)));
    ("covering", CBool (covering c));
    ("n_covering", CNum (num_of_nat (n_covering c)));
    ("10% rule", CBool (rule_10_percent c));
    ("10% rule applied on LPs", CBool (rule_10_percent c && rule_10_Abdalla c));
    ("10% rule applied on ply percentages", CBool (rule_10_percent c && negb (rule_10_Abdalla c)));
    ("percentage limit when rule applied on LPs", pct (percent_Abdalla c));
    ("percent_0", pct (percent_0 c));
    ("percent_45", pct (percent_45 c));
    ("percent_90", pct (percent_90 c));
    ("percent_-45", pct (percent_135 c));
    ("percent_+-45", pct (percent_45_135 c));
    ("diso", CBool (diso c));
    ("delta_angle", CNum (inject_Z (delta_angle c)));
    ("contig", CBool (contig c));
    ("n_contig", CNum (match n_contig_c c with Some n => num_of_nat n | None => unlimited end));
    ("fibre orientations", join (set_of_angles c));
    ("number fibre orientations", CNum (num_of_nat (length (set_of_angles c))));
    ("ply drop spacing rule", CBool (pdl_spacing c));
    ("minimum number of continuous plies between ply drops", CNum (inject_Z (min_drop c))) ]%string.

(** run_BELLA_from_input_file_SST_1.py 44-94: the arguments of the constructor (combine_45_135 and
    calc_combine_45_135 are left to their defaults; delta_angle is an integer in this model) *)
Definition read_constraints (t : labelled) : result cargs :=
  do sy <- bind (lookup t "symmetry") to_bool;
  do ba <- bind (lookup t "balance") to_bool;
  do oo <- bind (lookup t "out-of-plane orthotropy") to_bool;
  do dt <- bind (lookup t "damage tolerance") to_bool;
  do dtr <- bind (lookup t "dam_tol_rule") to_int;
  do cov <- bind (lookup t "covering") to_bool;
  do ncov <- bind (lookup t "n_covering") to_int;
  do r10 <- bind (lookup t "10% rule") to_bool;
  do rab <- bind (lookup t "10% rule applied on LPs") to_bool;
  do pab <- bind (lookup t "percentage limit when rule applied on LPs") to_num;
  do p0 <- bind (lookup t "percent_0") to_num;
  do p45 <- bind (lookup t "percent_45") to_num;
  do p90 <- bind (lookup t "percent_90") to_num;
  do p135 <- bind (lookup t "percent_-45") to_num;
  do p4 <- bind (lookup t "percent_+-45") to_num;
  do di <- bind (lookup t "diso") to_bool;
  do de <- bind (lookup t "delta_angle") to_int;
  do co <- bind (lookup t "contig") to_bool;
  do nco <- bind (lookup t "n_contig") to_int;
  do ang <- bind (lookup t "fibre orientations") split;
  do sp <- bind (lookup t "ply drop spacing rule") to_bool;
  do md <- bind (lookup t "minimum number of continuous plies between ply drops") to_int;
  Ok {| a_sym := sy; a_bal := ba; a_oopo := oo; a_dam_tol := dt; a_dam_tol_rule := Z.to_nat dtr;
        a_covering := cov; a_n_covering := Z.to_nat ncov; a_rule_10_percent := r10; a_rule_10_Abdalla := rab;
        a_percent_Abdalla := pab; a_percent_0 := p0; a_percent_45 := p45; a_percent_90 := p90;
        a_percent_135 := p135; a_percent_45_135 := p4; a_diso := di; a_contig := co;
        a_n_contig := Z.to_nat nco; a_delta_angle := de; a_set_of_angles := ang; a_min_drop := md;
        a_pdl_spacing := sp;
        a_combine_45_135 := a_combine_45_135 default_args;
        a_calc_combine_45_135 := a_calc_combine_45_135 default_args |}.

(* ------------------------------------------------------------------ *)
(** * Sheet [Objective function] *)

(** obj_function.py 15-24; the isinstance tests are left out *)
Record oargs := { g_diso : Q; g_contig : Q; g_10 : Q; g_bal_ipo : Q; g_oopo : Q; g_spacing : Q; g_modes : Z }.
Definition default_oargs : oargs := {| g_diso := 0; g_contig := 0; g_10 := 0; g_bal_ipo := 1; g_oopo := 1; g_spacing := 1; g_modes := 1 |}.
Record obj := { coeff_diso : Q; coeff_contig : Q; coeff_10 : Q; coeff_bal_ipo : Q; coeff_oopo : Q; coeff_spacing : Q; n_modes : Z }.

(** obj_function.py 26-100 ObjFunction.__init__, tests in the order of the code *)
Definition mk_obj (c : cons) (g : oargs) : result obj :=
  do _ <- guard (g_modes g <? 1) (Raised BadDefinition);
  do k10 <- set_coeff (rule_10_percent c) (g_10 g);
  do kb <- set_coeff (bal c) (g_bal_ipo g);
  do ko <- set_coeff (oopo c) (g_oopo g);
  do kc <- set_coeff (contig c) (g_contig g);
  do kd <- set_coeff (diso c) (g_diso g);
  do ks <- set_coeff (pdl_spacing c) (g_spacing g);
  Ok {| coeff_diso := kd; coeff_contig := kc; coeff_10 := k10; coeff_bal_ipo := kb; coeff_oopo := ko; coeff_spacing := ks; n_modes := g_modes g |}.

(** save_set_up.py 305-335 save_objective_function_BELLA *)
Definition save_objective (o : obj) : labelled :=
  [ ("optimisation problem", CText "LP matching");
    ("coeff_contig", CNum (coeff_contig o));
    ("coeff_diso", CNum (coeff_diso o));
    ("coeff_10", CNum (coeff_10 o));
    ("coeff_bal_ipo", CNum (coeff_bal_ipo o));
    ("coeff_oopo", CNum (coeff_oopo o));
    ("coeff_spacing", CNum (coeff_spacing o)) ]%string.

(** run_BELLA_from_input_file_SST_1.py 196-210: coeff_bal_ipo and n_modes keep their defaults *)
Definition read_objective (t : labelled) : result oargs :=
  do k10 <- bind (lookup t "coeff_10") to_num;
  do kc <- bind (lookup t "coeff_contig") to_num;
  do kd <- bind (lookup t "coeff_diso") to_num;
  do ko <- bind (lookup t "coeff_oopo") to_num;
  do ks <- bind (lookup t "coeff_spacing") to_num;
  Ok {| g_diso := kd; g_contig := kc; g_10 := k10; g_bal_ipo := g_bal_ipo default_oargs; g_oopo := ko; g_spacing := ks;
        g_modes := g_modes default_oargs |}.

(* ------------------------------------------------------------------ *)
(** * Sheet [Materials] *)

(** save_set_up.py 40-68 save_materials *)
Definition save_materials (m : material) : labelled :=
  [ ("E11", CNum (E11 m)); ("E22", CNum (E22 m)); ("G12", CNum (G12 m)); ("nu12", CNum (nu12 m)); ("nu21", CNum (nu21 m));
    ("areal density", CNum (density_area m)); ("volumic density", CNum (density_volume m)); ("ply thickness", CNum (ply_t m));
    ("Q11", CNum (Q11 m)); ("Q12", CNum (Q12 m)); ("Q22", CNum (Q22 m)); ("Q66", CNum (Q66 m));
    ("U1", CNum (U1 m)); ("U2", CNum (U2 m)); ("U3", CNum (U3 m)); ("U4", CNum (U4 m)); ("U5", CNum (U5 m)) ]%string.

(** run_BELLA_from_input_file_SST_1.py 182-192: density_volume keeps its default 0 *)
Definition read_materials (t : labelled) : result margs :=
  do e11 <- bind (lookup t "E11") to_num;
  do e22 <- bind (lookup t "E22") to_num;
  do nu <- bind (lookup t "nu12") to_num;
  do g <- bind (lookup t "G12") to_num;
  do da <- bind (lookup t "areal density") to_num;
  do th <- bind (lookup t "ply thickness") to_num;
  Ok {| a_E11 := e11; a_E22 := e22; a_nu12 := nu; a_G12 := g; a_dv := 0%Q; a_da := da; a_t := th |}.

(* ------------------------------------------------------------------ *)
(** * Sheet [Panels] *)

(** what save_multipanel uses of a panel: number, neighbours, the panel, the two lengths, the loads,
    and the weightings left by filter_lampam_weightings *)
Record dpanel := { d_id : Z; d_nbs : list Z; d_panel : panel; d_lx : Q; d_ly : Q; d_nx : Q; d_ny : Q; d_lw : list Q }.

(** columns: 'Panel ID', 'Neighbour panel IDs', 'Number of plies', 'Weighting in MP objective
    funtion', 'Length_x', 'Length_y', 'Area', 'N_x', 'N_y', 'lampam_target[i]',
    'lampam_weightings_ini[i]', 'lampam_weightings[i]' (i from 1) *)
Inductive column := KId | KNbs | KPlies | KWeighting | KLx | KLy | KArea | KNx | KNy | KTarget (i : nat) | KWini (i : nat) | KW (i : nat).
Definition column_eqb (x y : column) : bool :=
  match x, y with
  | KId, KId | KNbs, KNbs | KPlies, KPlies | KWeighting, KWeighting | KLx, KLx | KLy, KLy | KArea, KArea | KNx, KNx | KNy, KNy => true
  | KTarget i, KTarget j | KWini i, KWini j | KW i, KW j => Nat.eqb i j
  | _, _ => false
  end.
Definition prow := list (column * cell).
Fixpoint at_column (r : prow) (k : column) : result cell :=
  match r with [] => Ok CBlank | (n, x) :: t => if column_eqb n k then Ok x else at_column t k end.

(** for ind in range(12): table.loc[ind_p, label(ind + 1)] = l[ind] *)
Definition twelve_cells (f : nat -> column) (l : list Q) : result prow :=
  mapM (fun i => do x <- at_ l i; Ok (f (S i), CNum x)) (seq 0 12).

(** save_set_up.py 110-141: one row. A panel always has an attribute N_x, never an attribute Weight *)
Definition save_panel (p : dpanel) : result prow :=
  let q := d_panel p in
  do tg <- twelve_cells KTarget (target q);
  do wi <- twelve_cells KWini (lw_ini q);
  do w <- twelve_cells KW (d_lw p);
  Ok ([ (KId, CNum (inject_Z (d_id p))); (KNbs, join (d_nbs p)); (KPlies, CNum (inject_Z (n_plies q)));
        (KWeighting, CNum (weighting q)) ]
      ++ (if (negb (Qeq_bool (d_lx p) 0) && negb (Qeq_bool (d_ly p) 0))%bool
          then [ (KLx, CNum (d_lx p)); (KLy, CNum (d_ly p)); (KArea, CNum (area q)) ] else [ (KArea, CNum (area q)) ])
      ++ [ (KNx, CNum (d_nx p)); (KNy, CNum (d_ny p)) ] ++ tg ++ wi ++ w).
Definition save_panels (ps : list dpanel) : result (list prow) := mapM save_panel ps.

(** pandas.read_excel turns a column all of whose cells are numbers written as text into a column of
    numbers; the other columns stay as they are *)
Definition numeric_text (x : cell) : bool := match x with CInts [_] | CNum _ | CBlank => true | _ => false end.
Definition as_number (x : cell) : cell := match x with CInts [z] => CNum (inject_Z z) | _ => x end.
Definition read_column (cells : list cell) : list cell := if forallb numeric_text cells then map as_number cells else cells.

(** what the script passes to Panel (area, lengths and loads keep their defaults 0) *)
Record read_panel := { r_id : Z; r_nbs : list Z; r_args : pargs }.

(** run_BELLA_from_input_file_SST_1.py 228-239, one panel; [nbs] is the cell of the column of neighbours *)
Definition read_row (r : prow) (nbs : cell) : result read_panel :=
  do id <- bind (at_column r KId) to_int;
  do tg <- mapM (fun i => bind (at_column r (KTarget (S i))) to_num) (seq 0 12);
  do w <- mapM (fun i => bind (at_column r (KW (S i))) to_num) (seq 0 12);
  do n <- bind (at_column r KPlies) to_int;
  do wg <- bind (at_column r KWeighting) to_num;
  do nb <- split nbs;
  Ok {| r_id := id; r_nbs := nb;
        r_args := {| a_n := n; a_target := tg; a_lw := w; a_area := 0%Q; a_lx := 0%Q; a_ly := 0%Q; a_weighting := wg |} |}.
Definition read_panels (t : list prow) : result (list read_panel) :=
  do nbs <- mapM (fun r => at_column r KNbs) t;
  mapM (fun rn => read_row (fst rn) (snd rn)) (List.combine t (read_column nbs)).

(* ------------------------------------------------------------------ *)
(** * The penalty columns of save_multipanel *)

(** a Python number or an array of numbers *)
Inductive value := VNum (q : Q) | VArr (l : list Q).
(** penalty_10[ind_p]: a number cannot be indexed *)
Definition index (v : value) (i : nat) : result Q := match v with VNum _ => Err TypeError | VArr l => at_ l i end.
(** save_set_up.py 163-166; [dist] are the distances of calc_distance_Abdalla, [pen] what
    calc_penalty_10_ss returns without mp *)
Definition penalty_10_value (c : cons) (dist : list Q) (pen : Q) : value :=
  if (rule_10_percent c && rule_10_Abdalla c)%bool then VArr dist else VNum pen.
(** save_set_up.py 171-176, the column 'Penalty 10% rule' for the given number of panels *)
Definition penalty_10_column (c : cons) (dist : list Q) (pen : Q) (n_panels : nat) : result (list Q) :=
  mapM (index (penalty_10_value c dist pen)) (seq 0 n_panels).
