(* Properties_savedcells.v - C90 cells of a sheet when the start row is given *)
From Verif Require Import Base Constraints Saved Properties_saved.
Local Open Scope Z_scope.

(** the cell in row i and column j *)
Definition cell_at {A} (s : block A) (i j : nat) : option A := match nth_error s i with Some r => nth_error r j | None => None end.

Lemma cell_over {A} (new old : block A) i j :
  cell_at (over new old) i j = match cell_at new i j with Some x => Some x | None => cell_at old i j end.
Proof.
  revert old i. induction new as [|r new IH]; intros old i.
  - cbn [over]. unfold cell_at at 2. destruct i; reflexivity.
  - destruct old as [|o old]; cbn [over].
    + unfold cell_at at 3. replace (nth_error (@nil (list A)) i) with (@None (list A)) by (destruct i; reflexivity). destruct (cell_at (r :: new) i j); reflexivity.
    + destruct i as [|i].
      * unfold cell_at. cbn [nth_error]. destruct (nth_error r j) as [x|] eqn:E.
        -- rewrite nth_error_app1; auto. apply nth_error_Some. congruence.
        -- apply nth_error_None in E. rewrite nth_error_app2 by auto.
           clear - E. revert o j E. induction r as [|y r IHr]; intros o j E; cbn [length skipn] in *; [rewrite Nat.sub_0_r; reflexivity|].
           destruct j; [lia|]. destruct o; cbn [skipn nth_error Nat.sub].
           ++ destruct (j - length r)%nat; reflexivity.
           ++ apply IHr. lia.
      * specialize (IH old i). unfold cell_at in *. cbn [nth_error]. exact IH.
Qed.

Lemma cell_put {A} start (new old : block A) i j :
  cell_at (put start new old) i j = if (start <=? i)%nat then match cell_at new (i - start) j with Some x => Some x | None => cell_at old i j end else cell_at old i j.
Proof.
  revert old i. induction start as [|k IH]; intros old i.
  - cbn [put Nat.leb]. rewrite Nat.sub_0_r. apply cell_over.
  - cbn [put]. destruct old as [|o old].
    + destruct i as [|i]; [unfold cell_at; cbn; destruct j; reflexivity|].
      change (cell_at ([] :: put k new []) (S i) j) with (cell_at (put k new []) i j). rewrite IH. cbn [Nat.leb Nat.sub].
      replace (cell_at (@nil (list A)) (S i) j) with (@None A) by reflexivity. replace (cell_at (@nil (list A)) i j) with (@None A) by (destruct i; reflexivity). reflexivity.
    + destruct i as [|i]; [reflexivity|].
      change (cell_at (o :: put k new old) (S i) j) with (cell_at (put k new old) i j). rewrite IH. reflexivity.
Qed.

(** with a start row given, a table takes the cells from that row on and leaves the others, those of the
    other sheets included *)
Theorem C90_startrow : forall A (b b' : book A) name df k truncate, append_df (File b) Loads name df (Some k) truncate = (File b', None) ->
  (exists s, sheet_of b' name = Some s /\
   forall i j, cell_at s i j =
     match (if (k <=? i)%nat then cell_at df (i - k) j else None) with
     | Some x => Some x
     | None => if truncate then None else match sheet_of b name with Some old => cell_at old i j | None => None end
     end) /\
  (forall other, other <> name -> sheet_of b' other = sheet_of b other).
Proof.
  intros A b b' name df k truncate H. unfold append_df in H. injection H as <-.
  assert (C : forall old i j, cell_at (write_at k df old) i j = match (if (k <=? i)%nat then cell_at df (i - k) j else None) with Some x => Some x | None => cell_at old i j end).
  { intros old i j. unfold write_at. destruct df as [|r df].
    - destruct (k <=? i)%nat; [|reflexivity]. unfold cell_at at 2. destruct (i - k)%nat; reflexivity.
    - rewrite cell_put. destruct (k <=? i)%nat; reflexivity. }
  split.
  - eexists. split; [rewrite sheet_of_set; destruct (sheet_eq_dec name name); [reflexivity|congruence]|]. intros i j. rewrite C.
    destruct (if (k <=? i)%nat then _ else _); auto. destruct (sheet_of b name); destruct truncate; auto; unfold cell_at; destruct i; reflexivity.
  - intros other N. rewrite sheet_of_set. destruct (sheet_eq_dec name other); [congruence|reflexivity].
Qed.
Print Assumptions C90_startrow.

(** a table of one row written over the second row of a sheet *)
Example C90_startrow_example : exists b', append_df (File [(SPanels, [[1; 2]; [3; 4; 5]; [6]])]) Loads SPanels [[7; 8]] (Some 1%nat) false = (File b', None) /\
  sheet_of b' SPanels = Some [[1; 2]; [7; 8; 5]; [6]].
Proof. eexists; split; reflexivity. Qed.
