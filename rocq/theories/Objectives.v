(* Objectives.v - model of src/BELLA/objectives.py and of the coefficients of
   src/BELLA/obj_function.py. Floats are exact rationals. Definitions only. *)
From Verif Require Import Base.
Local Open Scope Z_scope.

(** numbers and one-dimensional numpy arrays *)
Inductive value := Num (q : Q) | Arr (l : list Q).

(** what a caller can pass as a penalty: a Python number, a numpy array, a Python list
    (whose entries may be None), or None *)
Inductive arg := ANum (q : Q) | AArr (l : list Q) | AList (l : list (option Q)) | ANone.

(** numpy product and sum with broadcasting: equal sizes, or one side of size 1 *)
Definition zip_with (f : Q -> Q -> Q) (l m : list Q) : list Q := map (fun p => f (fst p) (snd p)) (combine l m).
Definition broadcast (f : Q -> Q -> Q) (a b : value) : result value :=
  match a, b with
  | Num x, Num y => Ok (Num (f x y))
  | Num x, Arr l => Ok (Arr (map (f x) l))
  | Arr l, Num y => Ok (Arr (map (fun x => f x y) l))
  | Arr l, Arr m =>
    if Nat.eqb (length l) (length m) then Ok (Arr (zip_with f l m))
    else match l, m with
         | [x], _ => Ok (Arr (map (f x) m))
         | _, [y] => Ok (Arr (map (fun x => f x y) l))
         | _, _ => Err ValueError
         end
  end.
Definition vmul := broadcast Qmult.

(** 1 + coeff * penalty. A number times a Python list is a list (or an error), to which 1
    cannot be added: TypeError; the same for None *)
Definition factor (coeff : Q) (p : arg) : result value :=
  match p with
  | ANum q => Ok (Num (1 + coeff * q)%Q)
  | AArr l => Ok (Arr (map (fun q => (1 + coeff * q)%Q) l))
  | AList _ | ANone => Err TypeError
  end.

(** Python's sum over an array; a number is not iterable *)
Definition vsum (v : value) : result Q :=
  match v with Arr l => Ok (sumQ l) | Num _ => Err TypeError end.

(** the six penalties and their coefficients *)
Record penalties := { p_diso : arg; p_contig : arg; p_10 : arg; p_bal_ipo : arg; p_oopo : arg; p_weight : arg }.
Record coefficients := { c_diso : Q; c_contig : Q; c_10 : Q; c_bal_ipo : Q; c_oopo : Q; c_weight : Q }.

(** objectives.py:34-50 calc_obj_one_panel: weightings @ (lampam - target)**2; all three
    arrays of the same size, else ValueError (broadcasting of sizes 1 left out) *)
Definition calc_obj_one_panel (lampam target weightings : list Q) : result Q :=
  if (Nat.eqb (length lampam) (length target) && Nat.eqb (length weightings) (length lampam))%bool then
    Ok (sumQ (zip_with Qmult weightings (map (fun x => (x * x)%Q) (zip_with Qminus lampam target))))
  else Err ValueError.

(** objectives.py:53-80 calc_obj_each_panel; one (lampam, target, weightings) per panel *)
Fixpoint calc_obj_each_panel (panels : list (list Q * list Q * list Q)) : result (list Q) :=
  match panels with
  | [] => Ok []
  | (l, t, w) :: rest =>
    do o <- calc_obj_one_panel l t w;
    do r <- calc_obj_each_panel rest;
    Ok (o :: r)
  end.

(** objectives.py:129-136 calc_obj_multi_panel, with_Nones=False; the products from left to right *)
Definition calc_obj_multi_panel (objective weightings : list Q) (p : penalties) (c : coefficients) : result Q :=
  do v0 <- vmul (Arr weightings) (Arr objective);
  do f1 <- factor (c_diso c) (p_diso p); do v1 <- vmul v0 f1;
  do f2 <- factor (c_contig c) (p_contig p); do v2 <- vmul v1 f2;
  do f3 <- factor (c_10 c) (p_10 p); do v3 <- vmul v2 f3;
  do f4 <- factor (c_bal_ipo c) (p_bal_ipo p); do v4 <- vmul v3 f4;
  do f5 <- factor (c_oopo c) (p_oopo p); do v5 <- vmul v4 f5;
  do f6 <- factor (c_weight c) (p_weight p); do v6 <- vmul v5 f6;
  vsum v6.

(** p[ind] as an operand of coeff * p[ind] *)
Definition entry (p : arg) (ind : nat) : result Q :=
  match p with
  | ANum _ | ANone => Err TypeError
  | AArr l => match nth_error l ind with Some q => Ok q | None => Err IndexError end
  | AList l => match nth_error l ind with Some (Some q) => Ok q | Some None => Err TypeError | None => Err IndexError end
  end.

(** objectives.py:142-168: the factor of a panel for diso, contig, 10 % and oopo. A list of
    at most one entry and a number have no attribute size (AttributeError, here TypeError).
    An array of size 1 enters as an array of size 1: same number *)
Definition panel_factor (coeff : Q) (p : arg) (ind : nat) : result Q :=
  match p with
  | ANone => Ok 1%Q
  | ANum _ => Err TypeError
  | AList l => if (1 <? length l)%nat then do q <- entry p ind; Ok (1 + coeff * q)%Q else Err TypeError
  | AArr l =>
    if (1 <? length l)%nat then do q <- entry p ind; Ok (1 + coeff * q)%Q
    else match l with [q] => Ok (1 + coeff * q)%Q | _ => Err ValueError end
  end.

(** objectives.py:170-174: balance and weight, always indexed *)
Definition panel_factor_indexed (coeff : Q) (p : arg) (ind : nat) : result Q :=
  match p with
  | ANone => Ok 1%Q
  | _ => do q <- entry p ind; Ok (1 + coeff * q)%Q
  end.

(** objectives.py:139-176: the contribution of a panel; None objectives are skipped *)
Definition panel_term (objective : list (option Q)) (p : penalties) (c : coefficients) (ind : nat) (w : Q) : result Q :=
  match nth_error objective ind with
  | None => Err IndexError
  | Some None => Ok 0%Q
  | Some (Some o) =>
    do f1 <- panel_factor (c_diso c) (p_diso p) ind;
    do f2 <- panel_factor (c_contig c) (p_contig p) ind;
    do f3 <- panel_factor (c_10 c) (p_10 p) ind;
    do f4 <- panel_factor (c_oopo c) (p_oopo p) ind;
    do f5 <- panel_factor_indexed (c_bal_ipo c) (p_bal_ipo p) ind;
    do f6 <- panel_factor_indexed (c_weight c) (p_weight p) ind;
    Ok (w * o * f1 * f2 * f3 * f4 * f5 * f6)%Q
  end.

(** objectives.py:137-177 calc_obj_multi_panel, with_Nones=True *)
Fixpoint sum_panels (objective : list (option Q)) (p : penalties) (c : coefficients) (ind : nat) (ws : list Q) (acc : Q) : result Q :=
  match ws with
  | [] => Ok acc
  | w :: rest =>
    do t <- panel_term objective p c ind w;
    sum_panels objective p c (S ind) rest (acc + t)%Q
  end.
Definition calc_obj_multi_panel_nones (objective : list (option Q)) (weightings : list Q) (p : penalties) (c : coefficients) : result Q :=
  sum_panels objective p c 0 weightings 0%Q.

(** objectives.py:179-251 calc_unconst_obj_multi_panel_A and _D: both branches of the test on
    inner_step do the same; [panels] are the targets and weightings of the reduced panels *)
Definition window (a b : nat) (l : list Q) := slice a b l.
Definition calc_unconst_obj (a b : nat) (panels : list (list Q * list Q)) (lampams : list (list Q)) (panel_weightings : list Q) : result Q :=
  do os <- calc_obj_each_panel (map (fun q => (fst q, window a b (fst (snd q)), window a b (snd (snd q)))) (combine lampams panels));
  do v <- vmul (Arr panel_weightings) (Arr os);
  vsum v.

(** obj_function.py:36-100: the coefficients held by ObjFunction; [active] tells whether the
    guideline is active *)
Definition set_coeff (active : bool) (given : Q) : result Q :=
  if active then (if Qle_bool 0 given then Ok given else Err (Raised BadDefinition)) else Ok 0%Q.
