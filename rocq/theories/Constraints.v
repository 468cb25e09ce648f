(* Constraints.v - model of src/BELLA/constraints.py *)
From Verif Require Import Base Uniq.

(** Arguments of the constructor.  /repo/src/BELLA/constraints.py 15-40.
    Simplifications: the isinstance checks (45, 51, 73, 93, 99, 110, 121, 140,
    148, 159, 162, 203-233) are discharged by the types here; percentages are
    exact rationals, angles integer degrees, ply counts naturals. *)
Record cargs := {
  a_sym : bool; a_bal : bool; a_oopo : bool; a_dam_tol : bool;
  a_rule_10_percent : bool; a_rule_10_Abdalla : bool; a_percent_Abdalla : Q;
  a_combine_45_135 : bool; a_calc_combine_45_135 : bool;
  a_percent_0 : Q; a_percent_45 : Q; a_percent_90 : Q; a_percent_135 : Q;
  a_percent_45_135 : Q;
  a_diso : bool; a_contig : bool; a_n_contig : nat; a_delta_angle : Z;
  a_dam_tol_rule : nat; a_set_of_angles : list Z; a_min_drop : Z;
  a_pdl_spacing : bool; a_covering : bool; a_n_covering : nat }.

(** The object.  Fields as in the code; [n_contig_c] uses [None] for 1e10.
    [cos_sin] is not stored (trigonometry is outside the model). *)
Record cons := {
  sym : bool; bal : bool; ipo : bool; oopo : bool;
  dam_tol : bool; dam_tol_rule : nat;
  covering : bool; n_covering : nat;
  rule_10_percent : bool; rule_10_Abdalla : bool; percent_Abdalla : Q;
  percent_0 : Q; percent_45 : Q; percent_90 : Q; percent_135 : Q;
  percent_45_135 : Q; percent_tot : Q;
  diso : bool; delta_angle : Z;
  contig : bool; n_contig : nat; n_contig_c : option nat;
  set_of_angles : list Z;
  angles_bal : list (Z * nat * nat);
  pdl_spacing : bool; min_drop : Z }.

(** 1e-15 *)
Definition eps15 : Q := (1 # 1000000000000000)%Q.
(** 24.9999999 *)
Definition abd_max : Q := (249999999 # 10000000)%Q.

Definition Qltb (a b : Q) : bool := negb (Qle_bool b a).
Definition Qleb (a b : Q) : bool := Qle_bool a b.
Definition Qmaxb (a b : Q) : Q := if Qltb a b then b else a.

(** index lookup [ind_angles_dict], constraints.py 302-309: position of the angle
    in set_of_angles, with -90 identified with 90 when 90 is allowed *)
Definition ind_angle (set : list Z) (a : Z) : option nat :=
  if andb (a =? -90) (memb 90 set) then index_of 90 set else index_of a set.

(** constraints.py 328-342: angles_bal, one row per 0 < theta < 90 *)
Fixpoint build_angles_bal (set : list Z) (l : list Z) : result (list (Z * nat * nat)) :=
  match l with
  | [] => Ok []
  | e :: t =>
      match ind_angle set e, ind_angle set (- e) with
      | Some i, Some j => do r <- build_angles_bal set t; Ok ((e, i, j) :: r)
      | _, _ => Err KeyError
      end
  end.

(** set_fibre_orientations, constraints.py 273-369 (branch order kept; the
    dictionaries other than ind_angles_dict and angles_bal carry no logic).
    Line 346 [self.angles_bal[:, 0]] is an IndexError when angles_bal is empty. *)
Definition set_fibre_orientations (angles : list Z) (r10 : bool)
  : result (list Z * list (Z * nat * nat)) :=
  let set := uniq angles in
  do _ <- guard (existsb (fun a => 90 <? a) set || existsb (fun a => a <=? -90) set)
                (Raised BadAngles);
  do _ <- guard (negb (memb 0 set && memb 45 set && memb 90 set && memb (-45) set)
                 && r10) (Raised BadAngles);
  do _ <- guard (existsb (fun a => negb (a =? 90) && negb (memb (- a) set)) set)
                (Raised BadAngles);
  do ab <- build_angles_bal set (filter (fun a => (0 <? a) && (a <? 90)) set);
  do _ <- guard (match ab with [] => true | _ => false end) IndexError;
  do _ <- guard (negb (Nat.eqb (length set) (length angles))) (Raised BadAngles);
  Ok (set, ab).

(** value of combine_45_135 after constraints.py 174-180 *)
Definition combine (a : cargs) : bool :=
  if a_calc_combine_45_135 a then
    negb (Qltb (eps15 + a_percent_45_135 a / 2) (a_percent_45 a)
          || Qltb (eps15 + a_percent_45_135 a / 2) (a_percent_135 a))%Q
  else a_combine_45_135 a.

Definition pc_bad (p : Q) : bool := Qltb p 0 || Qltb 100 p.

(** Constraints.__init__ with set_percentages, constraints.py 41-271 *)
Definition mk_cons (a : cargs) : result cons :=
  (* 54-67 damage tolerance rule *)
  do _ <- guard (a_dam_tol a && negb (existsb (Nat.eqb (a_dam_tol_rule a)) [1;2;3]%nat))
                (Raised BadDefinition);
  (* 76-78 *)
  do _ <- guard (negb (existsb (Nat.eqb (a_n_covering a)) [0;1;2]%nat))
                (Raised BadDefinition);
  (* 79-89 *)
  let cov1 := if a_dam_tol a then true else a_covering a in
  let ncov1 := if a_dam_tol a then
                 (if Nat.eqb (a_dam_tol_rule a) 1 then Nat.max (a_n_covering a) 1
                  else 2%nat)
               else a_n_covering a in
  let ncov2 := if cov1 then Nat.max ncov1 1 else ncov1 in
  (* 174-240 set_percentages *)
  let comb := combine a in
  let p45_135 := if comb then a_percent_45_135 a else 0%Q in
  let p45 := if comb then 0%Q else a_percent_45 a in
  let p135 := if comb then 0%Q else a_percent_135 a in
  do _ <- guard (Qltb (a_percent_Abdalla a) 0 || Qltb abd_max (a_percent_Abdalla a))
                (Raised BadDefinition);
  do _ <- guard (pc_bad (a_percent_0 a)) (Raised BadDefinition);
  do _ <- guard (pc_bad (a_percent_45 a)) (Raised BadDefinition);
  do _ <- guard (pc_bad (a_percent_90 a)) (Raised BadDefinition);
  do _ <- guard (pc_bad (a_percent_135 a)) (Raised BadDefinition);
  do _ <- guard (pc_bad (a_percent_45_135 a)) (Raised BadDefinition);
  (* 244-271 *)
  let active := a_rule_10_percent a && negb (a_rule_10_Abdalla a) in
  let p0 := if active then (a_percent_0 a / 100)%Q else 0%Q in
  let p45 := if active then (p45 / 100)%Q else 0%Q in
  let p90 := if active then (a_percent_90 a / 100)%Q else 0%Q in
  let p135 := if active then (p135 / 100)%Q else 0%Q in
  let p45_135 := if active then (p45_135 / 100)%Q else 0%Q in
  let pabd := if a_rule_10_percent a && a_rule_10_Abdalla a
              then (a_percent_Abdalla a / 100)%Q else 0%Q in
  let ptot := if active
              then Qmaxb (p0 + p45 + p90 + p135) (p0 + p45_135 + p90) else 0%Q in
  (* 118-133 contiguity *)
  do _ <- guard (a_contig a && Nat.eqb (a_n_contig a) 1) (Raised BadDefinition);
  (* 136 *)
  do sa <- set_fibre_orientations (a_set_of_angles a) (a_rule_10_percent a);
  (* 146-156 *)
  do _ <- guard (a_min_drop a <? 1) (Raised BadDefinition);
  Ok {| sym := a_sym a; bal := a_bal a; ipo := a_bal a; oopo := a_oopo a;
        dam_tol := a_dam_tol a;
        dam_tol_rule := if a_dam_tol a then a_dam_tol_rule a else 0%nat;
        covering := cov1; n_covering := ncov2;
        rule_10_percent := a_rule_10_percent a;
        rule_10_Abdalla := a_rule_10_Abdalla a;
        percent_Abdalla := pabd;
        percent_0 := p0; percent_45 := p45; percent_90 := p90;
        percent_135 := p135; percent_45_135 := p45_135; percent_tot := ptot;
        diso := a_diso a; delta_angle := if a_diso a then a_delta_angle a else 180;
        contig := a_contig a;
        n_contig := if a_contig a then a_n_contig a else 1%nat;
        n_contig_c := if a_contig a then Some (a_n_contig a) else None;
        set_of_angles := fst sa; angles_bal := snd sa;
        pdl_spacing := a_pdl_spacing a; min_drop := a_min_drop a |}.

(** default arguments, constraints.py 17-40 *)
Definition default_args : cargs := {|
  a_sym := false; a_bal := false; a_oopo := false; a_dam_tol := false;
  a_rule_10_percent := false; a_rule_10_Abdalla := false; a_percent_Abdalla := 0;
  a_combine_45_135 := true; a_calc_combine_45_135 := true;
  a_percent_0 := 0; a_percent_45 := 0; a_percent_90 := 0; a_percent_135 := 0;
  a_percent_45_135 := 0;
  a_diso := false; a_contig := false; a_n_contig := 1; a_delta_angle := 45;
  a_dam_tol_rule := 2; a_set_of_angles := [0; 45; 90; -45]; a_min_drop := 1;
  a_pdl_spacing := false; a_covering := false; a_n_covering := 0 |}.
