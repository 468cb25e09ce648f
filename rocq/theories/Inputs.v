(* Inputs.v - model of read_pdls_excel and check_pdls_ini (src/BELLA/pdl_ini.py), of the
   constructor of Parameters (src/BELLA/parameters.py) and of objective_repair and
   calc_distanciation (src/RELAY/repair_tools.py). Floats are exact rationals. Definitions only. *)
From Verif Require Import Base Constraints Guidelines.
Local Open Scope Z_scope.

(* ------------------------------------------------------------------ *)
(** pdl_ini.py 42-60 read_pdls_excel: [sheet k] is the table of the sheet 'pdl' + str(k), None if
    pd.read_excel raises. [pdl] is the local variable of this name (None: not assigned yet). The
    finally block also runs when the loop is left by break. *)
Definition pdl_table := list (list Z).
Fixpoint read_loop (fuel : nat) (sheet : nat -> option pdl_table) (ind_pdl : nat) (pdl : option pdl_table) (pdls : list pdl_table) : result (nat * list pdl_table) :=
  match fuel with
  | O => Err OutOfFuel
  | S f =>
    match sheet ind_pdl with
    | Some t => read_loop f sheet (S ind_pdl) (Some t) (pdls ++ [t])
    | None => match pdl with Some t => Ok (S ind_pdl, pdls ++ [t]) | None => Err Unbound end
    end
  end.
(** the number printed (lines 58-59) and the layouts returned *)
Definition read_pdls_excel (fuel : nat) (sheet : nat -> option pdl_table) : result (nat * list pdl_table) :=
  do r <- read_loop fuel sheet 1 None []; Ok ((fst r - 2)%nat, snd r).

(** pdl_ini.py 63-79 check_pdls_ini; n_plies: the ply counts of multipanel.reduced.panels *)
Fixpoint check_rows (n_plies : list Z) (rows : pdl_table) {struct rows} : result unit :=
  match rows with
  | [] => Ok tt
  | row :: rows' =>
    match n_plies with
    | [] => Err IndexError
    | n :: n_plies' => do _ <- guard (negb (zlen (filter (fun x => negb (x =? -1)) row) =? n)) (Raised WrongPlyCount); check_rows n_plies' rows'
    end
  end.
Definition check_pdl (n_plies : list Z) (pdl : pdl_table) : result unit :=
  do _ <- guard (negb (length pdl =? length n_plies)%nat) (Raised SizeMismatch); check_rows n_plies pdl.
Fixpoint check_pdls_ini (n_plies : list Z) (pdls : list pdl_table) : result unit :=
  match pdls with [] => Ok tt | pdl :: r => do _ <- check_pdl n_plies pdl; check_pdls_ini n_plies r end.
(** optimiser.py 72-78: the layouts of the file and the number of outer steps *)
Definition layouts_from_file (fuel : nat) (sheet : nat -> option pdl_table) (n_plies : list Z) : result (list pdl_table * nat) :=
  do r <- read_pdls_excel fuel sheet;
  do _ <- check_pdls_ini n_plies (snd r);
  Ok (snd r, length (snd r)).

(* ------------------------------------------------------------------ *)
(** Python values given to the constructor of Parameters: int, bool, float, anything else *)
Inductive pyval := VInt (z : Z) | VBool (b : bool) | VFloat (q : Q) | VOther.
(** isinstance(v, int) is also true of booleans *)
Definition as_int (v : pyval) : option Z := match v with VInt z => Some z | VBool b => Some (if b then 1 else 0) | _ => None end.
Definition as_number (v : pyval) : option Q := match v with VFloat q => Some q | _ => option_map inject_Z (as_int v) end.
Definition as_bool (v : pyval) : option bool := match v with VBool b => Some b | _ => None end.

(** not isinstance(v, int) -> raise. Where the code first computes np.around(v) ([around]) a value
    that is not a number raises there *)
Definition an_int (around : bool) (v : pyval) : result Z :=
  match as_int v with
  | Some z => Ok z
  | None => match v with VFloat _ => Err (Raised BadDefinition) | _ => if around then Err TypeError else Err (Raised BadDefinition) end
  end.
(** an integer that must be at least 1 *)
Definition a_limit (v : pyval) : result Z := do z <- an_int true v; do _ <- guard (z <? 1) (Raised BadDefinition); Ok z.
Definition a_bool (v : pyval) : result bool := match as_bool v with Some b => Ok b | None => Err (Raised BadDefinition) end.
Definition a_number (v : pyval) : result Q := match as_number v with Some q => Ok q | None => Err (Raised BadDefinition) end.

Record pargs := {
  i_group_size_min : pyval; i_group_size_max : pyval; i_global : pyval; i_local : pyval; i_local_final : pyval; i_global_final : pyval;
  i_global2 : pyval; i_local2 : pyval; i_global3 : pyval; i_local3 : pyval; i_n_ini : pyval; i_p_A : pyval;
  i_n_D1 : pyval; i_n_D2 : pyval; i_n_D3 : pyval; i_membrane : pyval; i_flexural : pyval; i_ref : pyval }.
Record params := {
  o_group_size_min : Z; o_group_size_max : Z; o_global : Z; o_local : Z; o_local_final : Z; o_global_final : Z;
  o_global2 : Z; o_local2 : Z; o_global3 : Z; o_local3 : Z; o_n_ini : Z; o_p_A : Q;
  o_n_D1 : Z; o_n_D2 : Z; o_n_D3 : Z; o_membrane : bool; o_flexural : bool; o_ref : Q }.

(** parameters.py 15-207; save_buckling, save_success_rate and the time limits are stored unchecked
    and left out *)
Definition mk_params (a : pargs) : result params :=
  do gmin <- a_limit (i_group_size_min a);
  do gmax <- an_int false (i_group_size_max a);
  do _ <- guard (gmax <? gmin) (Raised BadDefinition);
  do n_ini <- a_limit (i_n_ini a);
  do global <- a_limit (i_global a);
  do global_final <- a_limit (i_global_final a);
  do local <- a_limit (i_local a);
  do local_final <- a_limit (i_local_final a);
  do ref <- a_number (i_ref a);
  do membrane <- a_bool (i_membrane a);
  do flexural <- a_bool (i_flexural a);
  do p_A <- a_number (i_p_A a);
  do _ <- guard (negb (Qle_bool 0 p_A && Qle_bool p_A 100)) (Raised BadDefinition);
  do n_D1 <- an_int false (i_n_D1 a);
  do n_D2 <- an_int false (i_n_D2 a);
  do n_D3 <- an_int false (i_n_D3 a);
  do global2 <- a_limit (i_global2 a);
  do local2 <- a_limit (i_local2 a);
  do global3 <- a_limit (i_global3 a);
  do local3 <- a_limit (i_local3 a);
  Ok {| o_group_size_min := gmin; o_group_size_max := gmax; o_global := global; o_local := local; o_local_final := local_final; o_global_final := global_final;
        o_global2 := global2; o_local2 := local2; o_global3 := global3; o_local3 := local3; o_n_ini := n_ini; o_p_A := p_A;
        o_n_D1 := n_D1; o_n_D2 := n_D2; o_n_D3 := n_D3; o_membrane := membrane; o_flexural := flexural; o_ref := ref |}.
(** the default values of lines 17-38 *)
Definition default_params : pargs :=
  {| i_group_size_min := VInt 4; i_group_size_max := VInt 12; i_global := VInt 100; i_local := VInt 100; i_local_final := VInt 1; i_global_final := VInt 5;
     i_global2 := VInt 10; i_local2 := VInt 10; i_global3 := VInt 10; i_local3 := VInt 10; i_n_ini := VInt 5; i_p_A := VInt 100;
     i_n_D1 := VInt 6; i_n_D2 := VInt 10; i_n_D3 := VInt 1; i_membrane := VBool true; i_flexural := VBool true; i_ref := VInt 1000 |}.

(* ------------------------------------------------------------------ *)
(** repair_tools.py 76-97 calc_distanciation: i < n/2 on integers; the division by n_plies = 0
    raises *)
Definition position_of (i n : Z) : Z := if 2 * i <? n then i else n - i - 1.
Definition calc_distanciation (i n : Z) (j : option Z) : result Q :=
  let p1 := inject_Z (position_of i n) in
  let p2 := match j with None => (inject_Z n / 2)%Q | Some j => inject_Z (position_of j n) end in
  if n =? 0 then Err ZeroDivision else Ok (2 * Qabs (p1 - p2) / inject_Z n)%Q.
(** repair_tools.py 30-57 objective_repair *)
Definition objective_repair (delta_angle i j n : Z) (status_bal cb cd cp : Q) : result Q :=
  do d <- calc_distanciation i n (Some j);
  Ok (- cb * status_bal + cd * inject_Z delta_angle / 180 + cp * d)%Q.
