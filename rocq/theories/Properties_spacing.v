(* Properties_spacing.v - property theorems C10 and C11 (ply-drop spacing). *)
From Verif Require Import Base Divers Spacing SpacingProofs.

(** C10: the penalty times the line length is the sum, over consecutive dropped
    positions, of the kept plies missing to reach min_drop; it is never negative and
    zero exactly when any two dropped plies have min_drop kept plies between them. *)
Theorem C10_spacing_penalty : forall ss md, ss <> [] ->
  exists p, calc_penalty_spacing_1ss ss md = Ok p /\ (0 <= p)%Q /\
    (p * inject_Z (zlen ss) == inject_Z (missing md (drops ss)))%Q /\
    ((p == 0)%Q <->
     forall i j, (i < j)%nat -> nth_error ss i = Some (-1) -> nth_error ss j = Some (-1) ->
       md <= Z.of_nat (countb (fun x => negb (x =? -1)) (slice (S i) j ss))).
Proof. exact spacing_1ss_spec. Qed.
Print Assumptions C10_spacing_penalty.

Theorem C10_drop_positions : forall ss i, In i (drops ss) <-> nth_error ss i = Some (-1).
Proof. exact drops_in. Qed.
Print Assumptions C10_drop_positions.

Theorem C10_empty_line_raises : forall md, calc_penalty_spacing_1ss [] md = Err ZeroDivision.
Proof. exact spacing_1ss_empty. Qed.
Print Assumptions C10_empty_line_raises.

Example C10_example :
  calc_penalty_spacing_1ss [-1; 0; 0; -1; 0; 1; -1; 2; -1; 4; -1; 1; -1] 2 = Ok (3 # 13) /\
  missing 2 (drops [-1; 0; 0; -1; 0; 1; -1; 2; -1; 4; -1; 1; -1]) = 3 /\
  calc_penalty_spacing_1ss [0; -1; 0; 0; -1; 5] 2 = Ok (0 # 6).
Proof. vm_compute; auto. Qed.

(** C11: the rule is off *)
Theorem C11_rule_off : forall md st before pdl after,
  calc_penalty_spacing false md st before pdl after = Ok 0%Q.
Proof. exact calc_penalty_spacing_off. Qed.
Print Assumptions C11_rule_off.

(** C11: never negative, nested or not *)
Theorem C11_nonnegative : forall on st md before pdl after p,
  (forall k w, lookup (s_weights st) k = Ok w -> (0 <= w)%Q) ->
  calc_penalty_spacing on md st before pdl after = Ok p -> (0 <= p)%Q.
Proof. exact calc_penalty_spacing_nonneg. Qed.
Print Assumptions C11_nonnegative.

(** C11: on a guide-based table (every ply of a thinner panel is a ply of the thicker
    ones) the penalty is zero exactly when, at every boundary with a positive weight,
    any two plies that end there have min_drop plies of the thinner panel between them.
    The tables before and after are the layouts of the neighbouring groups. *)
Theorem C11_zero_iff_spaced_partial : forall st md before pdl after,
  table_ok st (or_empty before pdl) pdl (or_empty after pdl) ->
  exists p, calc_penalty_spacing true md st before (map Some pdl) after = Ok p /\ (0 <= p)%Q /\
    ((p == 0)%Q <-> forall i j w, In (i, j) (s_boundaries st) ->
       lookup (s_weights st) (i, j) = Ok w -> (0 < w)%Q ->
       boundary_spaced md (full_row (or_empty before pdl) pdl (or_empty after pdl) i)
                          (full_row (or_empty before pdl) pdl (or_empty after pdl) j)).
Proof. exact calc_penalty_spacing_spec. Qed.
Print Assumptions C11_zero_iff_spaced_partial.

(** C11: the ply-drop gate *)
Theorem C11_check_ply_drop_rules_partial : forall covering spacing md st rows,
  table_ok st (or_empty None rows) rows (or_empty None rows) ->
  (forall r, In r rows -> r <> []) ->
  (check_ply_drop_rules covering spacing md st rows = Ok tt <->
   (covering = true -> forall r, In r rows -> nth 0 r 0 <> -1 /\ last r 0 <> -1) /\
   (spacing = true -> forall i j w, In (i, j) (s_boundaries st) ->
      lookup (s_weights st) (i, j) = Ok w -> (0 < w)%Q ->
      boundary_spaced md (nth i rows []) (nth j rows []))).
Proof. exact check_ply_drop_rules_spec. Qed.
Print Assumptions C11_check_ply_drop_rules_partial.

Definition strip3 : strip :=
  {| s_boundaries := [(0, 1); (1, 2)]%nat;
     s_weights := [((0, 1)%nat, 1%Q); ((1, 2)%nat, 2%Q)] |}.
Definition rows3 : list (list Z) :=
  [[0; -1; 2; 3; -1; 5; -1]; [0; 1; 2; 3; -1; 5; 6]; [0; 1; 2; 3; 4; 5; 6]].

Lemma strip3_ok : table_ok strip3 (or_empty None rows3) rows3 (or_empty None rows3).
Proof.
  constructor; try reflexivity.
  - exists 7%nat; intros i Hi; rewrite full_row_empty.
    destruct i as [|[|[|i]]]; cbn in *; try lia; reflexivity.
  - intros r Hr; cbn in Hr; intuition; subst; discriminate.
  - intros i j [E|[E|[]]]; injection E as <- <-; split; try (cbn; lia).
    + exists 1%Q; split; [reflexivity | discriminate].
    + exists 2%Q; split; [reflexivity | discriminate].
  - intros i j H; rewrite !full_row_empty.
    destruct i as [|[|[|i]]], j as [|[|[|j]]]; cbn in H; try lia;
      repeat constructor; cbn; intros; congruence.
  - intros i H; rewrite full_row_empty.
    destruct i as [|[|[|i]]]; cbn in H; try lia.
    + exists 0; split; [cbn; auto | lia].
    + exists 0; split; [cbn; auto | lia].
Qed.

(** table_ok is met by a three-panel strip; its penalty is zero for min_drop 2 and
    positive for min_drop 4 (plies 1 and 6 end at the first boundary with the three
    plies 2, 3 and 5 between them) *)
Example C11_example :
  table_ok strip3 (or_empty None rows3) rows3 (or_empty None rows3) /\
  (exists p, calc_penalty_spacing true 3 strip3 None (map Some rows3) None = Ok p /\ (p == 0)%Q) /\
  (exists p, calc_penalty_spacing true 4 strip3 None (map Some rows3) None = Ok p /\ (p == 1 # 6)%Q).
Proof.
  split; [exact strip3_ok|]; split; eexists; (split; [vm_compute; reflexivity | vm_compute; reflexivity]).
Qed.

(** C11, defect: a group with a single ply column is skipped, even when the plies of
    the neighbouring groups make the drops adjacent: the penalty is zero although two
    plies ending at the boundary are adjacent. *)
Theorem C11_single_ply_group_refuted : exists st md before pdl,
  calc_penalty_spacing true md st (Some before) (map Some pdl) None = Ok 0%Q /\
  In (0, 1)%nat (s_boundaries st) /\ lookup (s_weights st) (0, 1)%nat = Ok 1%Q /\
  0 < md /\
  ~ boundary_spaced md (full_row before pdl (or_empty None pdl) 0)
                       (full_row before pdl (or_empty None pdl) 1).
Proof.
  exists {| s_boundaries := [(0, 1)]%nat; s_weights := [((0, 1)%nat, 1%Q)] |}, 2,
    [[0; -1]; [0; 1]], [[-1]; [2]].
  repeat split; try reflexivity; try lia; [left; reflexivity|].
  intros H; specialize (H [(0, 0)] (-1, 1) [] (-1, 2) [] eq_refl).
  assert (2 <= 0); [|lia]. apply H; split; cbn; congruence.
Qed.
Print Assumptions C11_single_ply_group_refuted.

(** C11, defect: when no ply of the group reaches a boundary (both panels drop every
    ply of the group) the division by the line length fails. *)
Theorem C11_no_ply_at_boundary_refuted : exists st md pdl,
  calc_penalty_spacing true md st None (map Some pdl) None = Err ZeroDivision /\
  (forall r, In r pdl -> length r = 2%nat).
Proof.
  exists {| s_boundaries := [(0, 1)]%nat; s_weights := [((0, 1)%nat, 1%Q)] |}, 2,
    [[-1; -1]; [-1; -1]; [1; 2]].
  split; [reflexivity | intros r Hr; cbn in Hr; intuition; subst; reflexivity].
Qed.
Print Assumptions C11_no_ply_at_boundary_refuted.

Definition rows3b : list (list Z) :=
  [[0; -1; 2; 3; -1; 5; 6]; [0; 1; 2; 3; -1; 5; 6]; [0; 1; 2; 3; 4; 5; 6]].
Lemma strip3b_ok : table_ok strip3 (or_empty None rows3b) rows3b (or_empty None rows3b).
Proof.
  constructor; try reflexivity.
  - exists 7%nat; intros i Hi; rewrite full_row_empty.
    destruct i as [|[|[|i]]]; cbn in *; try lia; reflexivity.
  - intros r Hr; cbn in Hr; intuition; subst; discriminate.
  - intros i j [E|[E|[]]]; injection E as <- <-; split; try (cbn; lia).
    + exists 1%Q; split; [reflexivity | discriminate].
    + exists 2%Q; split; [reflexivity | discriminate].
  - intros i j H; rewrite !full_row_empty.
    destruct i as [|[|[|i]]], j as [|[|[|j]]]; cbn in H; try lia;
      repeat constructor; cbn; intros; congruence.
  - intros i H; rewrite full_row_empty.
    destruct i as [|[|[|i]]]; cbn in H; try lia.
    + exists 0; split; [cbn; auto | lia].
    + exists 0; split; [cbn; auto | lia].
Qed.
(** C11, defect: with two protected plies (damage tolerance rules 2 and 3) the gate
    still looks at the outermost ply only: a table that drops the second ply passes. *)
Theorem C11_second_covering_ply_refuted : exists st rows,
  table_ok st (or_empty None rows) rows (or_empty None rows) /\
  check_ply_drop_rules true true 2 st rows = Ok tt /\
  exists r, In r rows /\ nth 1 r 0 = -1.
Proof.
  exists strip3, rows3b; split; [exact strip3b_ok|]; split; [vm_compute; reflexivity|].
  exists [0; -1; 2; 3; -1; 5; 6]; split; [left; reflexivity | reflexivity].
Qed.
Print Assumptions C11_second_covering_ply_refuted.
