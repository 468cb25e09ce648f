(* Stiffness.v - model of src/BELLA/materials.py, src/buckling/buckling.py and
   src/guidelines/ipo_oopo.py. Floats are exact rationals; pi squared is an argument. A division by
   zero is an error (numpy may return inf or NaN with a warning instead). Definitions only. *)
From Verif Require Import Base Constraints.
Local Open Scope Z_scope.

(** a / b *)
Definition qdiv (a b : Q) : result Q := if Qeq_bool b 0 then Err ZeroDivision else Ok (a / b)%Q.

(* ------------------------------------------------------------------ *)
(** * materials.py *)

(** materials.py:11-19, the arguments; the isinstance tests are left out *)
Record margs := { a_E11 : Q; a_E22 : Q; a_nu12 : Q; a_G12 : Q; a_dv : Q; a_da : Q; a_t : Q }.

Record material := { E11 : Q; E22 : Q; G12 : Q; nu12 : Q; nu21 : Q; density_area : Q; density_volume : Q; ply_t : Q;
                     Q11 : Q; Q12 : Q; Q22 : Q; Q66 : Q; U1 : Q; U2 : Q; U3 : Q; U4 : Q; U5 : Q }.

(** materials.py:22-107 Material.__init__; the tests of lines 33 and 41 look at E11 again *)
Definition mk_material (a : margs) : result material :=
  do _ <- guard (Qle_bool (a_E11 a) 0) (Raised BadDefinition);
  do _ <- guard (Qle_bool (a_E11 a) 0) (Raised BadDefinition);
  do _ <- guard (Qle_bool (a_E11 a) 0) (Raised BadDefinition);
  do _ <- guard (Qltb (a_dv a) 0) (Raised BadDefinition);
  do _ <- guard (Qltb (a_da a) 0) (Raised BadDefinition);
  do _ <- guard (Qle_bool (a_t a) 0) (Raised BadDefinition);
  do nu21 <- qdiv (a_nu12 a * a_E22 a) (a_E11 a);
  do da_dv <- (if (Qeq_bool (a_da a) 0 && Qeq_bool (a_dv a) 0)%bool then do dv <- qdiv (a_da a) (a_t a); Ok ((601 # 2)%Q, dv)
               else if Qeq_bool (a_da a) 0 then Ok ((a_dv a * a_t a)%Q, a_dv a)
               else if Qeq_bool (a_dv a) 0 then do dv <- qdiv (a_da a) (a_t a); Ok (a_da a, dv)
               else Ok (a_da a, a_dv a));
  let bla := (1 - a_nu12 a * nu21)%Q in
  do q11 <- qdiv (a_E11 a) bla;
  do q12 <- qdiv (a_nu12 a * a_E22 a) bla;
  do q22 <- qdiv (a_E22 a) bla;
  let q66 := a_G12 a in
  Ok {| E11 := a_E11 a; E22 := a_E22 a; G12 := a_G12 a; nu12 := a_nu12 a; nu21 := nu21;
        density_area := fst da_dv; density_volume := snd da_dv; ply_t := a_t a;
        Q11 := q11; Q12 := q12; Q22 := q22; Q66 := q66;
        U1 := ((1 # 8) * (3 * q11 + 3 * q22 + 2 * q12 + 4 * q66))%Q;
        U2 := ((1 # 2) * (q11 - q22))%Q;
        U3 := ((1 # 8) * (q11 + q22 - 2 * q12 - 4 * q66))%Q;
        U4 := ((1 # 8) * (q11 + q22 + 6 * q12 - 4 * q66))%Q;
        U5 := ((1 # 8) * (q11 + q22 - 2 * q12 + 4 * q66))%Q |}.

(* ------------------------------------------------------------------ *)
(** * buckling.py *)

(** l[i] *)
Definition at_ (l : list Q) (i : nat) : result Q := match nth_error l i with Some x => Ok x | None => Err IndexError end.

(** buckling.py:72-82: D11, D12, D22, D66 *)
Definition bending (lampam : list Q) (mat : material) (n_plies : Z) : result (Q * Q * Q * Q) :=
  let h := (inject_Z n_plies * ply_t mat)%Q in
  let a := ((1 # 12) * (h * h * h))%Q in
  if (length lampam =? 12)%nat then
    do v8 <- at_ lampam 8; do v9 <- at_ lampam 9;
    Ok ((a * (U1 mat + U2 mat * v8 + U3 mat * v9))%Q, (a * (- U3 mat * v9 + U4 mat))%Q,
        (a * (U1 mat - U2 mat * v8 + U3 mat * v9))%Q, (a * (- U3 mat * v9 + U5 mat))%Q)
  else
    do v0 <- at_ lampam 0; do v1 <- at_ lampam 1;
    Ok ((a * (U1 mat + U2 mat * v0 + U3 mat * v1))%Q, (a * (- U3 mat * v1 + U4 mat))%Q,
        (a * (U1 mat - U2 mat * v0 + U3 mat * v1))%Q, (a * (- U3 mat * v0 + U5 mat))%Q).

(** buckling.py:95-117 buckling_factor_m_n *)
Definition buckling_factor_m_n (pi2 : Q) (D : Q * Q * Q * Q) (m n : Z) (N_x N_y length_x length_y : Q) : result Q :=
  let '(D11, D12, D22, D66) := D in
  do u <- qdiv (inject_Z m) length_x; let alpha := (u * u)%Q in
  do v <- qdiv (inject_Z n) length_y; let beta := (v * v)%Q in
  qdiv (pi2 * (D11 * (alpha * alpha) + 2 * (D12 + 2 * D66) * alpha * beta + D22 * (beta * beta)))
       (alpha * Qabs N_x + beta * Qabs N_y).

(** np.min; an empty array is a ValueError *)
Fixpoint qmin_from (x : Q) (l : list Q) : Q :=
  match l with [] => x | y :: t => qmin_from (if Qltb y x then y else x) t end.
Definition qmin (l : list Q) : result Q := match l with [] => Err ValueError | x :: t => Ok (qmin_from x t) end.

(** run a list of computations, stop at the first error *)
Fixpoint sequence {A} (l : list (result A)) : result (list A) :=
  match l with [] => Ok [] | r :: t => do x <- r; do xs <- sequence t; Ok (x :: xs) end.

(** the modes (m, n), row after row *)
Definition modes (k : nat) : list (Z * Z) :=
  flat_map (fun m => map (fun n => (Z.of_nat m + 1, Z.of_nat n + 1)) (seq 0 k)) (seq 0 k).

(** buckling.py:55-92 buckling_factor *)
Definition buckling_factor (pi2 : Q) (lampam : list Q) (mat : material) (n_plies : Z) (N_x N_y length_x length_y : Q) (n_modes : nat) : result Q :=
  do D <- bending lampam mat n_plies;
  do buck <- sequence (map (fun mn => buckling_factor_m_n pi2 D (fst mn) (snd mn) N_x N_y length_x length_y) (modes n_modes));
  qmin buck.

(** buckling.py:28-30 buckling_margin *)
Definition buckling_margin (f : Q) : Q := (100 * (f - 1))%Q.

(* ------------------------------------------------------------------ *)
(** * ipo_oopo.py *)

(** a symmetric 3x3 matrix: 11, 12, 22, 66, 16, 26 *)
Record mat3 := { s11 : Q; s12 : Q; s22 : Q; s66 : Q; s16 : Q; s26 : Q }.
(** a 3x3 matrix, by rows *)
Record gen3 := { g00 : Q; g01 : Q; g02 : Q; g10 : Q; g11 : Q; g12 : Q; g20 : Q; g21 : Q; g22 : Q }.
Definition full (m : mat3) : gen3 :=
  {| g00 := s11 m; g01 := s12 m; g02 := s16 m; g10 := s12 m; g11 := s22 m; g12 := s26 m; g20 := s16 m; g21 := s26 m; g22 := s66 m |}.
Definition mul3 (a b : gen3) : gen3 :=
  {| g00 := (g00 a * g00 b + g01 a * g10 b + g02 a * g20 b)%Q; g01 := (g00 a * g01 b + g01 a * g11 b + g02 a * g21 b)%Q;
     g02 := (g00 a * g02 b + g01 a * g12 b + g02 a * g22 b)%Q;
     g10 := (g10 a * g00 b + g11 a * g10 b + g12 a * g20 b)%Q; g11 := (g10 a * g01 b + g11 a * g11 b + g12 a * g21 b)%Q;
     g12 := (g10 a * g02 b + g11 a * g12 b + g12 a * g22 b)%Q;
     g20 := (g20 a * g00 b + g21 a * g10 b + g22 a * g20 b)%Q; g21 := (g20 a * g01 b + g21 a * g11 b + g22 a * g21 b)%Q;
     g22 := (g20 a * g02 b + g21 a * g12 b + g22 a * g22 b)%Q |}.
Definition sub3 (a b : gen3) : gen3 :=
  {| g00 := (g00 a - g00 b)%Q; g01 := (g01 a - g01 b)%Q; g02 := (g02 a - g02 b)%Q;
     g10 := (g10 a - g10 b)%Q; g11 := (g11 a - g11 b)%Q; g12 := (g12 a - g12 b)%Q;
     g20 := (g20 a - g20 b)%Q; g21 := (g21 a - g21 b)%Q; g22 := (g22 a - g22 b)%Q |}.
Definition det3 (a : gen3) : Q :=
  (g00 a * (g11 a * g22 a - g12 a * g21 a) - g01 a * (g10 a * g22 a - g12 a * g20 a) + g02 a * (g10 a * g21 a - g11 a * g20 a))%Q.
(** np.linalg.inv: the inverse (here by cofactors); LinAlgError when singular *)
Definition inv3 (a : gen3) : result gen3 :=
  let d := det3 a in
  if Qeq_bool d 0 then Err ValueError else
  Ok {| g00 := ((g11 a * g22 a - g12 a * g21 a) / d)%Q; g01 := ((g02 a * g21 a - g01 a * g22 a) / d)%Q; g02 := ((g01 a * g12 a - g02 a * g11 a) / d)%Q;
        g10 := ((g12 a * g20 a - g10 a * g22 a) / d)%Q; g11 := ((g00 a * g22 a - g02 a * g20 a) / d)%Q; g12 := ((g02 a * g10 a - g00 a * g12 a) / d)%Q;
        g20 := ((g10 a * g21 a - g11 a * g20 a) / d)%Q; g21 := ((g01 a * g20 a - g00 a * g21 a) / d)%Q; g22 := ((g00 a * g11 a - g01 a * g10 a) / d)%Q |}.

(** ipo_oopo.py:51-56, 116-121 and 141-146: extensional stiffness *)
Definition A_of (l : list Q) (mat : material) : result mat3 :=
  do l0 <- at_ l 0; do l1 <- at_ l 1; do l2 <- at_ l 2; do l3 <- at_ l 3;
  Ok {| s11 := (U1 mat + U2 mat * l0 + U3 mat * l1)%Q; s12 := (- U3 mat * l1 + U4 mat)%Q;
        s22 := (U1 mat - U2 mat * l0 + U3 mat * l1)%Q; s66 := (- U3 mat * l1 + U5 mat)%Q;
        s16 := ((1 # 2) * U2 mat * l2 + U3 mat * l3)%Q; s26 := ((1 # 2) * U2 mat * l2 - U3 mat * l3)%Q |}.
(** ipo_oopo.py:72-77, 156-161: coupling stiffness *)
Definition B_of (l : list Q) (mat : material) : result mat3 :=
  do l4 <- at_ l 4; do l5 <- at_ l 5; do l6 <- at_ l 6; do l7 <- at_ l 7;
  Ok {| s11 := ((1 # 4) * (U2 mat * l4 + U3 mat * l5))%Q; s12 := ((1 # 4) * (- U3 mat * l5))%Q;
        s22 := ((1 # 4) * (- U2 mat * l4 + U3 mat * l5))%Q; s66 := ((1 # 4) * (- U3 mat * l5))%Q;
        s16 := ((1 # 4) * ((1 # 2) * U2 mat * l6 + U3 mat * l7))%Q; s26 := ((1 # 4) * ((1 # 2) * U2 mat * l6 - U3 mat * l7))%Q |}.
(** ipo_oopo.py:79-84, 163-168: bending stiffness *)
Definition D_of (l : list Q) (mat : material) : result mat3 :=
  do l8 <- at_ l 8; do l9 <- at_ l 9; do l10 <- at_ l 10; do l11 <- at_ l 11;
  Ok {| s11 := ((1 # 12) * (U1 mat + U2 mat * l8 + U3 mat * l9))%Q; s12 := ((1 # 12) * (- U3 mat * l9 + U4 mat))%Q;
        s22 := ((1 # 12) * (U1 mat - U2 mat * l8 + U3 mat * l9))%Q; s66 := ((1 # 12) * (- U3 mat * l9 + U5 mat))%Q;
        s16 := ((1 # 12) * ((1 # 2) * U2 mat * l10 + U3 mat * l11))%Q; s26 := ((1 # 12) * ((1 # 2) * U2 mat * l10 - U3 mat * l11))%Q |}.

(** |a / b| *)
Definition adiv (a b : Q) : result Q := do x <- qdiv a b; Ok (Qabs x).

(** ipo_oopo.py:57-62 and 122-133 (computed twice): parameters 1 to 6 *)
Definition param_1_6 (A : mat3) : result (list Q) :=
  sequence [adiv (s16 A) (s11 A); adiv (s16 A) (s12 A); adiv (s16 A) (s66 A); adiv (s26 A) (s12 A); adiv (s26 A) (s22 A); adiv (s26 A) (s66 A)].

(** ipo_oopo.py:63-69, 147-153: parameters 7 to 12 of a symmetric laminate *)
Definition param_7_12_sym (A : mat3) : result (list Q) :=
  let x := (s12 A * s26 A - s22 A * s16 A)%Q in
  let y := (s12 A * s16 A - s11 A * s26 A)%Q in
  sequence [adiv x (s22 A * s66 A - s26 A * s26 A); adiv x (s16 A * s26 A - s12 A * s66 A); adiv x (s11 A * s22 A - s12 A * s12 A);
            adiv y (s16 A * s26 A - s12 A * s66 A); adiv y (s11 A * s66 A - s16 A * s16 A); adiv y (s11 A * s22 A - s12 A * s12 A)].

(** ipo_oopo.py:85-107, 169-191: parameters 7 to 12 of a general laminate *)
Definition param_7_12_gen (A B D : mat3) : result (list Q) :=
  do di <- inv3 (full D);
  do a <- inv3 (sub3 (full A) (mul3 (mul3 (full B) di) (full B)));
  sequence [adiv (g02 a) (g00 a); adiv (g02 a) (g01 a); adiv (g02 a) (g22 a); adiv (g12 a) (g01 a); adiv (g12 a) (g11 a); adiv (g12 a) (g22 a)].

Definition param_7_12 (l : list Q) (mat : material) (sy : bool) (A : mat3) : result (list Q) :=
  if sy then param_7_12_sym A
  else do B <- B_of l mat; do D <- D_of l mat; param_7_12_gen A B D.

(** ipo_oopo.py:48-111, 113-135, 138-193 *)
Definition ipo_param_1_12 (l : list Q) (mat : material) (sy : bool) : result (list Q) :=
  do A <- A_of l mat; do p <- param_1_6 A; do q <- param_7_12 l mat sy A; Ok (p ++ q).
Definition ipo_param_1_6 (l : list Q) (mat : material) (sy : bool) : result (list Q) :=
  do A <- A_of l mat; param_1_6 A.
Definition ipo_param_7_12 (l : list Q) (mat : material) (sy : bool) : result (list Q) :=
  do A <- A_of l mat; param_7_12 l mat sy A.

Definition qmaxl (l : list Q) : result Q :=
  match l with [] => Err ValueError | x :: t => Ok (fold_left (fun m y => if Qltb m y then y else m) t x) end.

(** ipo_oopo.py:196-202 calc_penalty_ipo_param: the threshold is not used *)
Definition calc_penalty_ipo_param (param : list Q) (threshold : Q) : result Q :=
  do m <- qmaxl (map (fun x => let a := Qabs x in if Qltb 0 a then a else 0%Q) param);
  qdiv m (inject_Z (zlen param)).

(** (abs(l[i]) + abs(l[j])) / 2 *)
Definition half_sum (l : list Q) (i j : nat) : result Q :=
  do x <- at_ l i; do y <- at_ l j; Ok ((Qabs x + Qabs y) / 2)%Q.

(** ipo_oopo.py:207-220 calc_penalty_ipo on a table of lamination parameters (one row per panel) and
    on one row *)
Definition calc_penalty_ipo_rows (rows : list (list Q)) (cummul_areas : Q) : result (list Q) :=
  do p <- sequence (map (fun l => half_sum l 2 3) rows); Ok (map (fun x => cummul_areas * x)%Q p).
Definition calc_penalty_ipo (l : list Q) (cummul_areas : Q) : result Q :=
  do p <- half_sum l 2 3; Ok (cummul_areas * p)%Q.

(** ipo_oopo.py:223-262 calc_penalty_ipo_oopo_mp; calculate_penalty is only assigned when no
    parameters are given *)
Definition calc_penalty_ipo_oopo_mp (rows : list (list Q)) (c : cons) (switch : bool) (parameters_given : bool) (areas moments : Q) : result (list Q * list Q) :=
  if parameters_given then Err Unbound else
  do i <- sequence (map (fun l => if (ipo c && switch)%bool then half_sum l 2 3 else Ok 0%Q) rows);
  do o <- sequence (map (fun l => if oopo c then half_sum l 10 11 else Ok 0%Q) rows);
  Ok (map (fun x => areas * x)%Q i, map (fun x => moments * x)%Q o).

(** ipo_oopo.py:266-295 calc_penalty_oopo_ss on several rows and on one row (the list with at most
    one element, which has no attribute ndim, left out) *)
Definition calc_penalty_oopo_rows (rows : list (list Q)) (c : cons) (moments : Q) : result (list Q) :=
  do o <- (if oopo c then sequence (map (fun l => half_sum l 10 11) rows) else Ok (map (fun _ => 0%Q) rows));
  Ok (map (fun x => moments * x)%Q o).
Definition calc_penalty_oopo (l : list Q) (c : cons) (moments : Q) : result Q :=
  do o <- (if oopo c then half_sum l 10 11 else Ok 0%Q); Ok (moments * o)%Q.
