(* LaylaInputs.v - model of the constructors of src/LAYLA_V02/constraints.py and
   src/LAYLA_V02/parameters.py. Floats are exact rationals. Definitions only. *)
From Verif Require Import Base Uniq Constraints Guidelines Inputs Layla.
Local Open Scope Z_scope.

(** constraints.py 17-34, arguments of Constraints. n_contig, delta_angle and dam_tol_rule are not
    checked to be integers by the code and are numbers here; combine_45_135 is never read *)
Record lcargs := {
  y_sym : pyval; y_bal : pyval; y_ipo : pyval; y_oopo : pyval; y_dam_tol : pyval; y_rule_10 : pyval;
  y_0 : pyval; y_45 : pyval; y_90 : pyval; y_135 : pyval; y_45_135 : pyval;
  y_diso : pyval; y_contig : pyval; y_n_contig : nat; y_delta : Z; y_dam_rule : nat; y_angles : list Z }.

(** a value that is not a number: the sum or the maximum of line 154 raises *)
Definition summand (v : pyval) : result Q := match as_number v with Some q => Ok q | None => Err TypeError end.
Definition a_percentage (q : Q) : result unit := guard (pc_bad q) (Raised BadDefinition).

(** lines 142-205 set_percentages: percent_0, percent_45, percent_90, percent_135, percent_45_135,
    percent_tot. A total above 100 is printed, not raised (183-187) *)
Definition l_set_percentages (r10 : bool) (p0 p45 p90 p135 p45_135 : pyval) : result (Q * Q * Q * Q * Q * Q) :=
  do m <- summand p45_135; do a <- summand p45; do b <- summand p135;
  let both := Qmaxb m (a + b)%Q in
  do q0 <- a_number p0; do _ <- a_percentage q0;
  do q45 <- a_number p45; do _ <- a_percentage q45;
  do q90 <- a_number p90; do _ <- a_percentage q90;
  do q135 <- a_number p135; do _ <- a_percentage q135;
  do q45_135 <- a_number p45_135; do _ <- a_percentage q45_135;
  if r10 then
    let s0 := (q0 / 100)%Q in let s45 := (q45 / 100)%Q in let s90 := (q90 / 100)%Q in let s135 := (q135 / 100)%Q in let s := (both / 100)%Q in
    Ok (s0, s45, s90, s135, s, Qmaxb (s0 + s45 + s90 + s135) (s0 + s + s90))
  else Ok (0%Q, 0%Q, 0%Q, 0%Q, 0%Q, 0%Q).

(** lines 36-126 (127-140 store the label of the laminate scheme, only printed). The attributes that only BELLA's constraints have (covering, n_covering,
    rule_10_Abdalla, percent_Abdalla, pdl_spacing, min_drop) do not exist here: a neutral value *)
Definition mk_layla_cons (a : lcargs) : result cons :=
  do s <- a_bool (y_sym a);
  do dt <- a_bool (y_dam_tol a);
  do _ <- guard (dt && negb (existsb (Nat.eqb (y_dam_rule a)) [1; 2; 3]%nat)) (Raised BadDefinition);
  do r10 <- a_bool (y_rule_10 a);
  do p <- l_set_percentages r10 (y_0 a) (y_45 a) (y_90 a) (y_135 a) (y_45_135 a);
  let '(q0, q45, q90, q135, q45_135, tot) := p in
  do d <- a_bool (y_diso a);
  do k <- a_bool (y_contig a);
  do _ <- guard (k && Nat.eqb (y_n_contig a) 1) (Raised BadDefinition);
  do sa <- set_fibre_orientations (y_angles a) r10;
  do i <- a_bool (y_ipo a);
  do o <- a_bool (y_oopo a);
  do b <- a_bool (y_bal a);
  Ok {| sym := s; bal := b; ipo := if b then true else i; oopo := o;
        dam_tol := dt; dam_tol_rule := if dt then y_dam_rule a else 0%nat;
        covering := false; n_covering := 0%nat;
        rule_10_percent := r10; rule_10_Abdalla := false; percent_Abdalla := 0%Q;
        percent_0 := q0; percent_45 := q45; percent_90 := q90; percent_135 := q135; percent_45_135 := q45_135; percent_tot := tot;
        diso := d; delta_angle := if d then y_delta a else 180;
        contig := k; n_contig := if k then y_n_contig a else 1%nat; n_contig_c := if k then Some (y_n_contig a) else None;
        set_of_angles := fst sa; angles_bal := snd sa; pdl_spacing := false; min_drop := 1 |}.
(** the default values of lines 17-34 *)
Definition default_layla : lcargs :=
  {| y_sym := VBool false; y_bal := VBool false; y_ipo := VBool false; y_oopo := VBool false; y_dam_tol := VBool false; y_rule_10 := VBool false;
     y_0 := VInt 0; y_45 := VInt 0; y_90 := VInt 0; y_135 := VInt 0; y_45_135 := VInt 0;
     y_diso := VBool false; y_contig := VBool false; y_n_contig := 1; y_delta := 45; y_dam_rule := 2; y_angles := [0; 45; 90; -45] |}.

(* ------------------------------------------------------------------ *)
(** parameters.py 18-42, arguments of Parameters. type_obj_func is stored unchecked and left out.
    group_size_max is a value or an array *)
Inductive sizes_arg := Size (v : pyval) | Sizes (l : list Q).
Record lpargs := {
  z_outer : pyval; z_coeff_10 : pyval; z_coeff_bal_ipo : pyval; z_coeff_oopo : pyval; z_group_min : pyval; z_group_max : sizes_arg;
  z_sens : list Q; z_tbo : list Q;
  z_global : pyval; z_global_p : pyval; z_local : pyval; z_local_final : pyval; z_membrane : pyval; z_flexural : pyval;
  z_p_A : pyval; z_n_D1 : pyval; z_n_D2 : pyval; z_n_D3 : pyval;
  z_10_lampam : pyval; z_10_pc : pyval; z_bal : pyval; z_ipo : pyval }.
(** the object; [w_cons_10_pc] is the attribute penalty_10_pc_switch written into the constraints;
    None in the weightings is NaN *)
Record lparams := {
  w_outer : Z; w_10_pc : bool; w_10_lampam : bool; w_coeff_10 : Q; w_cons_10_pc : pyval;
  w_bal : bool; w_ipo : bool; w_coeff_bal_ipo : Q; w_coeff_oopo : Q; w_membrane : bool; w_flexural : bool; w_p_A : Q;
  w_n_D1 : Z; w_n_D2 : Z; w_n_D3 : Z; w_group_min : Z; w_group_max : list Z;
  w_global : Z; w_global_p : Z; w_local : Z; w_local_final : Z; w_sens : list Q; w_tbo : list Q;
  w_final : option (list Q); w_ini : list Q; w_finalA : option (list Q); w_finalD : option (list Q) }.

(** truth of a value; an object of another type is taken to be true *)
Definition truthy (v : pyval) : bool :=
  match v with VInt z => negb (z =? 0) | VBool b => b | VFloat q => negb (Qeq_bool q 0) | VOther => true end.
Definition a_coeff (v : pyval) : result Q := do q <- a_number v; do _ <- guard (Qltb q 0) (Raised BadDefinition); Ok q.
(** astype(int) truncates toward zero *)
Definition to_int (q : Q) : Z := Z.quot (Qnum q) (Zpos (Qden q)).
(** set(constraints.set_of_angles) == set([0, 45, -45, 90]) *)
Definition standard (c : cons) : bool :=
  (forallb (fun a => memb a (set_of_angles c)) [0; 45; -45; 90] && forallb (fun a => memb a [0; 45; -45; 90]) (set_of_angles c))%bool.
(** lines 282-297: np.isclose(x, 0) is abs(x) <= 1e-8, and false of NaN *)
Definition l_normalised (l : list Q) : list Q :=
  if forallb (fun x => Qle_bool (Qabs x) (1 # 100000000)) l then l else map (fun x => x / sumQ l)%Q l.

(** lines 224-226; line 226: a value that is neither an integer nor an array has no astype *)
Definition sizes_of (v : sizes_arg) (outer : Z) : result (list Q) :=
  match v with
  | Sizes l => Ok l
  | Size v => match as_int v with Some z => Ok (repeat (inject_Z z) (Z.to_nat outer)) | None => Err (Raised Other) end
  end.

(** lines 43-297. Lines 242-256: the size of the arrays is never refused here (the condition is about
    things that are not arrays); another size fails in weights_calculation. An array of size 1,
    which numpy would broadcast there, is not modelled *)
Definition mk_layla_params (c : cons) (a : lpargs) : result lparams :=
  do outer <- a_limit (z_outer a);
  do t <- (if rule_10_percent c
           then do b1 <- a_bool (z_10_pc a); do b2 <- a_bool (z_10_lampam a); do q <- a_coeff (z_coeff_10 a); Ok (b1, b2, q)
           else Ok (false, false, 0%Q));
  let '(sw_pc, sw_lampam, c10) := t in
  do _ <- guard (truthy (z_10_pc a) && truthy (z_10_lampam a)) (Raised BadDefinition);
  do sw_bal <- (if bal c then a_bool (z_bal a) else Ok false);
  do t <- (if ipo c then do b <- a_bool (z_ipo a); do q <- a_coeff (z_coeff_bal_ipo a); Ok (b, q) else Ok (false, 0%Q));
  let '(sw_ipo, cbi) := t in
  do _ <- guard (truthy (z_ipo a) && truthy (z_bal a)) (Raised BadDefinition);
  do coo <- (if oopo c then a_coeff (z_coeff_oopo a) else Ok 0%Q);
  do mem <- a_bool (z_membrane a);
  do flex <- a_bool (z_flexural a);
  do p_A <- a_number (z_p_A a);
  do _ <- guard (negb (Qle_bool 0 p_A && Qle_bool p_A 100)) (Raised BadDefinition);
  do n_D1 <- an_int false (z_n_D1 a);
  do n_D2 <- an_int false (z_n_D2 a);
  do n_D3 <- an_int false (z_n_D3 a);
  do gmin <- a_limit (z_group_min a);
  do _ <- guard (gmin <? Z.of_nat (n_contig c)) (Raised BadDefinition);
  do sizes <- sizes_of (z_group_max a) outer;
  do _ <- guard (existsb (fun el => Qltb el (inject_Z gmin)) sizes) (Raised BadDefinition);
  do _ <- guard (zlen sizes <? outer) (Raised BadDefinition);
  do global <- a_limit (z_global a);
  do global_p <- a_limit (z_global_p a);
  do local <- a_limit (z_local a);
  do local_final <- a_limit (z_local_final a);
  do _ <- guard (existsb (fun x => Qltb x 0) (z_sens a)) (Raised BadDefinition);
  do _ <- guard (existsb (fun x => negb (Qeq_bool x 0 || Qeq_bool x 1)) (z_tbo a)) (Raised BadDefinition);
  do _ <- guard (negb (Nat.eqb (length (z_sens a)) 12 && Nat.eqb (length (z_tbo a)) 12)) ValueError;
  do w <- weights_calculation (sym c) (standard c) (ipo c) sw_ipo (oopo c) cbi coo (z_sens a) (z_tbo a);
  Ok {| w_outer := outer; w_10_pc := sw_pc; w_10_lampam := sw_lampam; w_coeff_10 := c10; w_cons_10_pc := z_10_pc a;
        w_bal := sw_bal; w_ipo := sw_ipo; w_coeff_bal_ipo := cbi; w_coeff_oopo := coo; w_membrane := mem; w_flexural := flex; w_p_A := p_A;
        w_n_D1 := n_D1; w_n_D2 := n_D2; w_n_D3 := n_D3; w_group_min := gmin; w_group_max := map to_int sizes;
        w_global := global; w_global_p := global_p; w_local := local; w_local_final := local_final; w_sens := z_sens a; w_tbo := z_tbo a;
        w_final := fst w; w_ini := snd w;
        w_finalA := option_map (fun l => l_normalised (firstn 4 l)) (fst w);
        w_finalD := option_map (fun l => l_normalised (firstn 4 (skipn 8 l))) (fst w) |}.
(** the default values of lines 20-42 *)
Definition default_lparams : lpargs :=
  {| z_outer := VInt 1; z_coeff_10 := VInt 0; z_coeff_bal_ipo := VInt 1; z_coeff_oopo := VInt 1; z_group_min := VInt 6; z_group_max := Sizes [8%Q];
     z_sens := repeat 1%Q 12; z_tbo := repeat 1%Q 12;
     z_global := VInt 100; z_global_p := VInt 10; z_local := VInt 1000; z_local_final := VInt 1000; z_membrane := VBool true; z_flexural := VBool true;
     z_p_A := VInt 100; z_n_D1 := VInt 6; z_n_D2 := VInt 10; z_n_D3 := VInt 1;
     z_10_lampam := VBool false; z_10_pc := VBool false; z_bal := VBool false; z_ipo := VBool false |}.
