(* Saved.v - model of the report file: src/divers/excel.py (delete_file, append_df_to_excel),
   src/BELLA/save_result.py and the end of src/BELLA/optimiser.py (lines 52, 123-154).
   A file is absent or a workbook: a list of named sheets, a sheet being a list of rows of cells.
   pandas is taken to leave the file alone until writer.save(), as the releases the code was
   written for do. Left out: the contents of the set-up sheets (save_set_up.py: arbitrary blocks
   here), the columns on buckling and on the stiffness matrix D, the column 'time (s)', the column
   widths. Floats are exact rationals. Definitions only. *)
From Verif Require Import Base Constraints Guidelines Spacing Strip Search Objectives Stiffness Final.
Local Open Scope Z_scope.

(* ------------------------------------------------------------------ *)
(** * excel.py *)
(** names of sheets; the named ones are those of a BELLA run *)
Inductive sheet := SConstraints | SMaterials | SParameters | SObjective | SMultipanel | SPanels | SResults | SBest | SOther (n : nat).
Definition sheet_eqb (x y : sheet) : bool :=
  match x, y with
  | SConstraints, SConstraints | SMaterials, SMaterials | SParameters, SParameters | SObjective, SObjective
  | SMultipanel, SMultipanel | SPanels, SPanels | SResults, SResults | SBest, SBest => true
  | SOther n, SOther m => Nat.eqb n m
  | _, _ => false
  end.

Section Workbook.
Variable A : Type.
Definition block := list (list A).
Definition book := list (sheet * block).
Inductive file := NoFile | File (b : book).
(** what load_workbook does on an existing file: returns it, raises an OSError, raises something else *)
Inductive loading := Loads | OsFailure | OtherFailure.

Fixpoint sheet_of (b : book) (name : sheet) : option block :=
  match b with [] => None | (n, s) :: t => if sheet_eqb n name then Some s else sheet_of t name end.
Fixpoint set_sheet (b : book) (name : sheet) (s : block) : book :=
  match b with [] => [(name, s)] | (n, x) :: t => if sheet_eqb n name then (n, s) :: t else (n, x) :: set_sheet t name s end.

(** openpyxl max_row: 1 for an empty sheet *)
Definition max_row (s : block) : nat := Nat.max 1 (length s).

(** dataf.to_excel(writer, sheet_name, startrow): the cells are written over those of the sheet *)
Fixpoint over (new old : block) : block :=
  match new, old with
  | [], _ => old
  | _, [] => new
  | r :: new', o :: old' => (r ++ skipn (length r) o) :: over new' old'
  end.
Fixpoint put (start : nat) (new old : block) : block :=
  match start with
  | O => over new old
  | S k => match old with [] => [] :: put k new [] | o :: old' => o :: put k new old' end
  end.
Definition write_at (start : nat) (new old : block) : block := match new with [] => old | _ => put start new old end.

(** excel.py 80-134. The local name FileNotFoundError is unbound when first read (it is assigned in
    the function), so it is always rebound to IOError, which is OSError *)
Definition append_df (f : file) (l : loading) (name : sheet) (df : block) (startrow : option nat) (truncate : bool) : file * option exn :=
  match f, l with
  | NoFile, _ | File _, OsFailure =>
      (File [(name, write_at (match startrow with Some k => k | None => 0%nat end) df [])], None)
  | File _, OtherFailure => (f, Some (Raised Other))
  | File b, Loads =>
      let start := match startrow, sheet_of b name with
                   | Some k, _ => k
                   | None, Some s => max_row s
                   | None, None => 0%nat
                   end in
      let old := match sheet_of b name with Some s => if truncate then [] else s | None => [] end in
      (File (set_sheet b name (write_at start df old)), None)
  end.

(** excel.py 61-77: the answers (as character codes) 'y', 'Y', 'Yes', 'yes', 'YES'; None: sys.exit *)
Definition accepted (answer : list Z) : bool :=
  existsb (fun w => Nat.eqb (length w) (length answer) && forallb (fun p => fst p =? snd p) (List.combine w answer))%bool
    [[121]; [89]; [89; 101; 115]; [121; 101; 115]; [89; 69; 83]].
Definition delete_file (f : file) (answer : list Z) : option file :=
  match f with
  | NoFile => Some NoFile
  | File _ => if accepted answer then Some NoFile else None
  end.

(** successive calls append_df_to_excel(filename, table, sheet); the computation of a table may
    raise an exception; load k is what load_workbook does at the k-th call *)
Fixpoint appends (load : nat -> loading) (k : nat) (f : file) (steps : list (sheet * result block)) : file * option exn :=
  match steps with
  | [] => (f, None)
  | (name, r) :: rest =>
    match r with
    | Err e => (f, Some e)
    | Ok df =>
      match append_df f (load k) name df None false with
      | (f', Some e) => (f', Some e)
      | (f', None) => appends load (S k) f' rest
      end
    end
  end.
End Workbook.
Arguments NoFile {A}. Arguments File {A} b. Arguments sheet_of {A}. Arguments set_sheet {A}. Arguments max_row {A}.
Arguments over {A}. Arguments put {A}. Arguments write_at {A}. Arguments append_df {A}. Arguments delete_file {A}. Arguments appends {A}.

(* ------------------------------------------------------------------ *)
(** * results.py and the end of optimiser.py *)
(** a panel of the structure: number of plies and target lamination parameters *)
Record spanel := { s_plies : Z; s_target : list Q }.
(** what a layout gives (BELLA_ResultsOnePdl), for all the panels *)
Record entry := { y_ss : list (list Z); y_sst : list (list Z); y_obj : Q; y_obj_panels : list Q; y_spacing : Q; y_calls : Z }.
(** BELLA_Results after optimiser.py 123-135; NaN is None *)
Record output := { w_ss : list (list Z); w_sst : list (list Z); w_ind_mini : nat;
                   w_obj_tab : list (option Q); w_obj_no_tab : list (list (option Q));
                   w_spacing_tab : list (option Q); w_calls_tab : list (option Z) }.

(** results.py 17-105, 107-116 and optimiser.py 123-135; None: a layout without result *)
Definition results_of (panels : list spanel) (width : nat) (l : list (option entry)) : result output :=
  let obj := map (option_map y_obj) l in
  do m <- argmin_nan obj;
  Ok {| w_ss := nth m (map (fun x => match x with Some y => y_ss y | None => map (fun p => repeat 0 (Z.to_nat (s_plies p))) panels end) l) [];
        w_sst := nth m (map (fun x => match x with Some y => y_sst y | None => map (fun _ => repeat 0 width) panels end) l) [];
        w_ind_mini := m;
        w_obj_tab := obj;
        w_obj_no_tab := map (fun x => match x with Some y => map Some (y_obj_panels y) | None => map (fun _ => None) panels end) l;
        w_spacing_tab := map (option_map y_spacing) l;
        w_calls_tab := map (option_map y_calls) l |}.

(* ------------------------------------------------------------------ *)
(** * save_result.py *)
(** a row of the sheets of results; the first three cells are only filled in the first row *)
Record line := {
  l_top : option (option Q * option Z * option Q);   (* obj_constraints, n_obj_func_calls, penalty_spacing *)
  l_panel : Z; l_plies : Z; l_obj : option Q; l_n_diso : Z; l_n_contig : Z; l_ipo : Q; l_oopo : Q;
  l_percent : list Q;                                 (* 0, 90, +45, -45, +-45 *)
  l_penalties : list Q;                               (* diso, contig, 10, ipo, oopo *)
  l_counts : list Z; l_errors : list Q; l_lampam : list Q; l_sst : list Z; l_ss : list Z; l_pdl : option (list Z) }.
Inductive cell := Title (k : nat) | Num (q : Q) | Count (z : Z) | NaN | Empty | Plies (l : list Z).
Definition num (q : option Q) : cell := match q with Some q => Num q | None => NaN end.
Definition cells (l : line) : list cell :=
  (match l_top l with
   | Some (o, n, s) => [num o; match n with Some n => Count n | None => NaN end; num s]
   | None => [Empty; Empty; Empty] end)
  ++ [Count (l_panel l); Count (l_plies l); num (l_obj l); Count (l_n_diso l); Count (l_n_contig l); Num (l_ipo l); Num (l_oopo l)]
  ++ map Num (l_percent l) ++ map Num (l_penalties l) ++ map Count (l_counts l) ++ map Num (l_errors l) ++ map Num (l_lampam l)
  ++ [Plies (l_sst l); Plies (l_ss l)] ++ match l_pdl l with Some p => [Plies p] | None => [] end.
(** index=False, header=True *)
Definition table (ls : list line) : list (list cell) :=
  match ls with [] => [] | l :: _ => map Title (seq 0 (length (cells l))) :: map cells ls end.

Section Save.
Variable c : cons.
Variable panels : list spanel.
Variable lampam : list Z -> list Q.          (* calc_lampam: twelve lamination parameters *)
Variable distance : list Q -> Q.             (* calc_distance_Abdalla *)

(** ten_percent_rule.py 193-234 with mp=True on a list of stacks: when the percentages are not used
    line 234 reads ss.shape, which a list does not have (AttributeError) *)
Definition penalty_10_mp (ss : list (list Z)) (lps : option (list (list Q))) : result (list Q) :=
  match (rule_10_percent c && rule_10_Abdalla c)%bool, lps with
  | true, Some l => Ok (map distance l)
  | _, _ => if Qltb 0 (percent_tot c) then mapM (fun s => calc_penalty_10_ss s c) ss else Err (Raised Other)
  end.

(** save_result.py 119-133 *)
Definition norm_penalty (active : bool) (n : list Z) : list Q :=
  if (active && existsb (fun k => negb (k =? 0)) n)%bool then zip_with Qdiv (map inject_Z n) (map (fun p => inject_Z (s_plies p)) panels)
  else map (fun _ => 0%Q) panels.

Definition percent (angles r : list Z) : Q := (inject_Z (sumZ (map (fun a => count a r) angles)) / inject_Z (zlen r))%Q.
Definition lp (l : list Q) (i : nat) : Q := nth i l 0%Q.

(** save_result.py 81-238 *)
Definition save_one (o : output) (pdl : option (list (list Z))) (ind : nat) : result (list line) :=
  do obj <- row (w_obj_tab o) ind;
  do calls <- row (w_calls_tab o) ind;
  do spacing <- row (w_spacing_tab o) ind;
  do n_diso <- calc_number_violations_diso_mp (w_ss o) c;
  do n_contig <- calc_penalty_contig_mp (w_ss o) c;
  let pen_diso := norm_penalty (diso c) n_diso in
  let pen_contig := norm_penalty (contig c) n_contig in
  do lps <- mapM (fun i => do s <- row (w_ss o) i; Ok (lampam s)) (seq 0 (length panels));
  do pen_10 <- penalty_10_mp (w_ss o) (if (rule_10_percent c && rule_10_Abdalla c)%bool then Some lps else None);
  do io <- calc_penalty_ipo_oopo_mp lps c true false 1 1;
  do obj_no <- row (w_obj_no_tab o) ind;
  mapM (fun ip =>
    do p <- row panels ip;
    do ob <- row obj_no ip;
    do nd <- row n_diso ip;
    do nc <- row n_contig ip;
    do l <- row lps ip;
    do sst <- row (w_sst o) ip;
    do _ <- guard (Nat.eqb (length sst) 0) ZeroDivision;
    do pd <- row pen_diso ip;
    do pc <- row pen_contig ip;
    do p10 <- row pen_10 ip;
    do pi <- row (fst io) ip;
    do po <- row (snd io) ip;
    do ss <- row (w_ss o) ip;
    do drops <- match pdl with Some t => do r <- row t ip; Ok (Some r) | None => Ok None end;
    Ok {| l_top := if Nat.eqb ip 0 then Some (obj, calls, spacing) else None;
          l_panel := Z.of_nat ip + 1; l_plies := s_plies p; l_obj := ob; l_n_diso := nd; l_n_contig := nc;
          l_ipo := (Qabs (lp l 2) + Qabs (lp l 3))%Q; l_oopo := (Qabs (lp l 10) + Qabs (lp l 11))%Q;
          l_percent := [percent [0] sst; percent [90] sst; percent [45] sst; percent [-45] sst; percent [45; -45] sst];
          l_penalties := [pd; pc; p10; pi; po];
          l_counts := map (fun a => count a sst) (set_of_angles c);
          l_errors := map (fun i => Qabs (lp (s_target p) i - lp l i)%Q) (seq 0 12);
          l_lampam := map (lp l) (seq 0 12);
          l_sst := sst; l_ss := ss; l_pdl := drops |}) (seq 0 (length panels)).

(** save_result.py 26-79: one table per layout on 'Results', then 'Best Result' *)
Definition save_steps (o : output) (n_ini : nat) (pdls : list (list (list Z))) : list (sheet * result (list (list cell))) :=
  map (fun i => (SResults, do pdl <- row pdls i; do ls <- save_one o (Some pdl) i; Ok (table ls))) (seq 0 n_ini)
  ++ [(SBest, do pdl <- row pdls (w_ind_mini o); do ls <- save_one o (Some pdl) 0; Ok (table ls))].
Definition save_only_best (o : output) : list (sheet * result (list (list cell))) :=
  [(SBest, do ls <- save_one o None 0; Ok (table ls))].

(** optimiser.py 145-150: the layouts are copied in an array of n_plies_max columns (a layout of
    one column is broadcast) *)
Definition fit (n_plies_max : nat) (pdl : list (list Z)) : result (list (list Z)) :=
  if forallb (fun r => Nat.eqb (length r) n_plies_max) pdl then Ok pdl
  else if forallb (fun r => Nat.eqb (length r) 1) pdl then Ok (map (fun r => repeat (hd 0 r) n_plies_max) pdl)
  else Err ValueError.

Inductive ending := Finished | Interrupted | Failed (e : exn).
Definition ends (x : option exn) : ending := match x with Some e => Failed e | None => Finished end.

(** optimiser.py 52 and 137-154. [run] is the optimisation, with the layouts of all the panels;
    [setup] are the contents of the set-up sheets *)
Definition setup_steps (setup : sheet -> list (list cell)) : list (sheet * result (list (list cell))) :=
  map (fun s => (s, Ok (setup s))) [SConstraints; SMaterials; SParameters; SObjective; SMultipanel; SPanels].
Definition bella_file (f : file cell) (answer : list Z) (load : nat -> loading) (n_plies_max : nat) (setup : sheet -> list (list cell))
    (run : result (output * list (list (list Z)))) : file cell * ending :=
  match delete_file f answer with
  | None => (f, Interrupted)
  | Some f' =>
    match run with
    | Err e => (f', Failed e)
    | Ok (o, pdls) =>
      let results := match mapM (fit n_plies_max) pdls with
                     | Err e => [(SResults, Err e)]
                     | Ok pdls' => save_steps o (length (w_obj_tab o)) pdls'
                     end in
      let '(g, x) := appends load 0 f' (setup_steps setup ++ results) in (g, ends x)
    end
  end.
End Save.
