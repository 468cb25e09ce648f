(* Properties_pdltools.v - property theorems C26, C29, C46, C47 (ply-drop layouts). *)
From Verif Require Import Base Uniq Divers DiversProofs Spacing SpacingProofs Strip StripProofs StripGraph StripWeights Format FormatProofs PdlTools PdlToolsProofs.
Local Open Scope Z_scope.

(* ------------------------------------------------------------------ *)
(** ** C26 *)

(** format_ply_drops: -1 at exactly the listed positions, the position elsewhere *)
Theorem C26_format_ply_drops : forall n ls,
  (forall l e, In l ls -> In e l -> 0 <= e < Z.of_nat n) ->
  exists r, format_ply_drops ls n = Ok r /\ length r = length ls /\ rect n r /\
    forall i j, (i < length ls)%nat -> (j < n)%nat ->
      nth j (nth i r []) (-1) = if memb (Z.of_nat j) (nth i ls []) then -1 else Z.of_nat j.
Proof. exact format_ply_drops_spec. Qed.
Print Assumptions C26_format_ply_drops.

Theorem C26_position_out_of_range_raises : forall n ls l e,
  In l ls -> In e l -> ~ (- Z.of_nat n <= e < Z.of_nat n) -> format_ply_drops ls n = Err IndexError.
Proof. exact format_ply_drops_err. Qed.
Print Assumptions C26_position_out_of_range_raises.

(** format_ply_drops2: the same drops, the kept plies of every panel numbered 0, 1, ... *)
Theorem C26_format_ply_drops2 : forall ss,
  length (format_ply_drops2 ss) = length ss /\
  forall i, (i < length ss)%nat -> numbered 0 (nth i ss []) (nth i (format_ply_drops2 ss) []).
Proof.
  intros ss; unfold format_ply_drops2; split; [apply map_length|]. intros i Hi.
  change [] with (renumber 0 []) at 2. rewrite map_nth. apply renumber_numbered.
Qed.
Print Assumptions C26_format_ply_drops2.

(** formatting twice changes nothing *)
Theorem C26_format_ply_drops2_idempotent : forall ss,
  format_ply_drops2 (format_ply_drops2 ss) = format_ply_drops2 ss.
Proof.
  intros ss; unfold format_ply_drops2; rewrite map_map; apply map_ext; intros l.
  assert (G : forall k, 0 <= k -> renumber k (renumber k l) = renumber k l).
  { induction l as [|x t IH]; intros k Hk; cbn [renumber]; auto.
    destruct (kept x) eqn:E; cbn [renumber].
    - replace (kept k) with true by (symmetry; apply kept_true; lia). rewrite IH by lia; auto.
    - rewrite E, IH by lia; auto. }
  apply G; lia.
Qed.
Print Assumptions C26_format_ply_drops2_idempotent.

Example C26_example :
  format_ply_drops [[]; [1]; [3; 1]] 4 = Ok [[0; 1; 2; 3]; [0; -1; 2; 3]; [0; -1; 2; -1]] /\
  format_ply_drops2 [[0; 1; 2; 3]; [0; -1; 2; 3]; [0; -1; 2; -1]] = [[0; 1; 2; 3]; [0; -1; 1; 2]; [0; -1; 1; -1]] /\
  (forall l e, In l [[]; [1]; [3; 1]] -> In e l -> 0 <= e < Z.of_nat 4).
Proof. repeat (split; [vm_compute; reflexivity|]). cbn; intuition (subst; cbn in *; intuition lia). Qed.

(* ------------------------------------------------------------------ *)
(** ** C29 *)

(** symmetric laminates without middle ply: in every panel the plies of the groups, one
    group after the other, numbered from 1, followed by their mirror image *)
Theorem C29_symmetric : forall d before after,
  (0 < d_panels d)%nat -> tables_ok (d_panels d) (tables before) -> d_middle d = false ->
  let w := length (panel_line (tables before) 0) in
  (2 * w = d_max d \/ 2 * w = d_max d + 1)%nat ->
  exists pdl, global_pdl_from_local_pdl d true before after = Ok pdl /\
    length pdl = d_panels d /\
    forall i, (i < d_panels d)%nat ->
      exists h, numbered 1 (panel_line (tables before) i) h /\ nth i pdl [] = h ++ rev h /\
        countb kept (nth i pdl []) =
          (2 * sumN (map (fun t => countb kept (nth i t [])) (tables before)))%nat.
Proof.
  intros d before after Hn Hok Hm w Hw. subst w. rewrite global_sym; auto; [|rewrite Hm; discriminate].
  rewrite Hm, Nat.sub_0_r.
  replace (Nat.eqb _ _ || Nat.eqb _ _)%bool with true
    by (symmetry; apply orb_true_iff; destruct Hw; [left|right]; apply Nat.eqb_eq; auto).
  eexists; split; [reflexivity|]. split; [rewrite map_length, seq_length; auto|].
  intros i Hi. exists (renumber 1 (panel_line (tables before) i)). split; [apply renumber_numbered|].
  rewrite (nth_indep _ _ (sym_row false (panel_line (tables before) 0))) by (rewrite map_length, seq_length; auto).
  rewrite (map_nth (fun i => sym_row false (panel_line (tables before) i))), seq_nth by auto. cbn [Nat.add].
  split; auto. rewrite sym_row_countb, countb_panel_line. cbn [andb]; lia.
Qed.
Print Assumptions C29_symmetric.

(** symmetric laminates with a middle ply: the last column is the middle ply and is not
    doubled *)
Theorem C29_symmetric_middle_ply : forall d before after,
  (0 < d_panels d)%nat -> tables_ok (d_panels d) (tables before) -> d_middle d = true ->
  let w := length (panel_line (tables before) 0) in
  (0 < w)%nat -> (2 * w - 1 = d_max d \/ 2 * w - 1 = d_max d + 1)%nat ->
  exists pdl, global_pdl_from_local_pdl d true before after = Ok pdl /\
    length pdl = d_panels d /\
    forall i, (i < d_panels d)%nat ->
      exists h, numbered 1 (panel_line (tables before) i) h /\ nth i pdl [] = h ++ rev (removelast h) /\
        rev (nth i pdl []) = nth i pdl [] /\
        countb kept (nth i pdl []) =
          (2 * sumN (map (fun t => countb kept (nth i t [])) (tables before))
           - if kept (last (panel_line (tables before) i) (-1)%Z) then 1 else 0)%nat.
Proof.
  intros d before after Hn Hok Hm w H0 Hw. subst w. rewrite global_sym; auto.
  rewrite Hm.
  replace (Nat.eqb _ _ || Nat.eqb _ _)%bool with true
    by (symmetry; apply orb_true_iff; destruct Hw; [left|right]; apply Nat.eqb_eq; auto).
  eexists; split; [reflexivity|]. split; [rewrite map_length, seq_length; auto|].
  intros i Hi. exists (renumber 1 (panel_line (tables before) i)). split; [apply renumber_numbered|].
  rewrite (nth_indep _ _ (sym_row true (panel_line (tables before) 0))) by (rewrite map_length, seq_length; auto).
  rewrite (map_nth (fun i => sym_row true (panel_line (tables before) i))), seq_nth by auto. cbn [Nat.add].
  split; auto. split; [apply sym_row_palindrome|]. rewrite sym_row_countb, countb_panel_line. reflexivity.
Qed.
Print Assumptions C29_symmetric_middle_ply.

(** asymmetric laminates: the groups at even places from the first side, then the groups
    at odd places in reversed order; all plies numbered from 1 *)
Theorem C29_asymmetric : forall d before after,
  (0 < d_panels d)%nat ->
  (forall aft, after = Some aft -> aft <> [] -> (length before <= length aft)%nat) ->
  let ts := front_tables before ++ back_tables before after in
  tables_ok (d_panels d) ts ->
  (length (panel_line ts 0) = d_max d \/ length (panel_line ts 0) = d_max d + 1)%nat ->
  exists pdl, global_pdl_from_local_pdl d false before after = Ok pdl /\
    length pdl = d_panels d /\
    forall i, (i < d_panels d)%nat ->
      numbered 1 (panel_line ts i) (nth i pdl []) /\
      countb kept (nth i pdl []) = sumN (map (fun t => countb kept (nth i t [])) ts).
Proof.
  intros d before after Hn Haft ts Hok Hw. subst ts. rewrite global_asym by auto.
  replace (Nat.eqb _ _ || Nat.eqb _ _)%bool with true
    by (symmetry; apply orb_true_iff; destruct Hw; [left|right]; apply Nat.eqb_eq; auto).
  eexists; split; [reflexivity|]. split; [rewrite map_length, seq_length; auto|].
  intros i Hi. set (ts := front_tables before ++ back_tables before after).
  rewrite (nth_indep _ _ (renumber 1 (panel_line ts 0))) by (rewrite map_length, seq_length; auto).
  rewrite (map_nth (fun i => renumber 1 (panel_line ts i))), seq_nth by auto. cbn [Nat.add].
  split; [apply renumber_numbered|]. rewrite renumber_countb by lia. apply countb_panel_line.
Qed.
Print Assumptions C29_asymmetric.

(** any other size raises *)
Theorem C29_wrong_size_raises : forall d (sym : bool) before after,
  (0 < d_panels d)%nat ->
  (forall aft, after = Some aft -> aft <> [] -> (length before <= length aft)%nat) ->
  let ts := if sym then tables before else front_tables before ++ back_tables before after in
  tables_ok (d_panels d) ts ->
  let w := length (panel_line ts 0) in
  let width := (if sym then 2 * w - (if d_middle d then 1 else 0) else w)%nat in
  (sym = true -> d_middle d = true -> (0 < w)%nat) ->
  width <> d_max d -> width <> (d_max d + 1)%nat ->
  global_pdl_from_local_pdl d sym before after = Err (Raised SizeMismatch).
Proof.
  intros d sym before after Hn Haft ts Hok w width H0 N1 N2. unfold width, w, ts in *.
  destruct sym; [rewrite global_sym by auto | rewrite global_asym by auto];
    apply Nat.eqb_neq in N1; apply Nat.eqb_neq in N2; rewrite N1, N2; auto.
Qed.
Print Assumptions C29_wrong_size_raises.

Definition demo_cov : option (list (list Z)) := Some [[0]; [0]].
Definition demo_group : option (list (list Z)) := Some [[0; -1; 1]; [0; 1; 2]].
Example C29_example_sym :
  let d := {| d_panels := 2; d_max := 8; d_middle := false |} in
  tables_ok 2 (tables [demo_cov; demo_group]) /\
  global_pdl_from_local_pdl d true [demo_cov; demo_group] None =
    Ok [[1; 2; -1; 3; 3; -1; 2; 1]; [1; 2; 3; 4; 4; 3; 2; 1]].
Proof.
  split; [|vm_compute; reflexivity]. intros t [<-|[<-|[]]]; (split; [cbn; lia|]);
    [exists 1%nat|exists 3%nat]; intros r Hr; cbn in Hr; intuition (subst; auto).
Qed.
Example C29_example_middle :
  let d := {| d_panels := 2; d_max := 7; d_middle := true |} in
  global_pdl_from_local_pdl d true [demo_cov; demo_group] None =
    Ok [[1; 2; -1; 3; -1; 2; 1]; [1; 2; 3; 4; 3; 2; 1]].
Proof. vm_compute; reflexivity. Qed.
Example C29_example_asym :
  let d := {| d_panels := 2; d_max := 8; d_middle := false |} in
  global_pdl_from_local_pdl d false [demo_cov; None; demo_group; None]
     (Some [None; demo_cov; None; demo_group]) =
    Ok [[1; 2; -1; 3; 4; -1; 5; 6]; [1; 2; 3; 4; 5; 6; 7; 8]].
Proof. vm_compute; reflexivity. Qed.

(* ------------------------------------------------------------------ *)
(** ** C46 *)

(** tables without middle ply: the recovered layout drops exactly the plies absent from
    the table *)
Theorem C46_symmetric_table_partial : forall d n c sst h,
  (0 < d_panels d <= length sst)%nat -> (d_panels d <= n)%nat -> rect (2 * h) sst -> (cut c <= h)%nat ->
  d_middle d = false -> (2 * h = d_max d \/ 2 * h = d_max d + 1)%nat ->
  (forall r j, In r sst -> (j < cut c)%nat -> nth j r (-1) <> -1) ->
  (forall r, In r sst -> rev (map kept r) = map kept r) ->
  exists pdl, input_pdl_from_sst sst d n true c = Ok pdl /\ length pdl = d_panels d /\
    forall i, (i < d_panels d)%nat -> map kept (nth i pdl []) = map kept (nth i sst []).
Proof. exact input_sym. Qed.
Print Assumptions C46_symmetric_table_partial.

Theorem C46_asymmetric_table_partial : forall d n c sst w,
  (0 < d_panels d <= length sst)%nat -> (d_panels d <= n)%nat -> rect w sst -> (2 * cut c <= w)%nat ->
  (w = d_max d \/ w = d_max d + 1)%nat ->
  (forall r j, In r sst -> (j < cut c \/ w - cut c <= j < w)%nat -> nth j r (-1) <> -1) ->
  exists pdl, input_pdl_from_sst sst d n false c = Ok pdl /\ length pdl = d_panels d /\
    forall i, (i < d_panels d)%nat -> map kept (nth i pdl []) = map kept (nth i sst []).
Proof. exact input_asym. Qed.
Print Assumptions C46_asymmetric_table_partial.

(** every symmetric table of a structure with a middle ply (odd number of columns) is
    rejected: the middle column is cut off and then a further one is deleted *)
Theorem C46_middle_ply_always_raises_refuted : forall d n c sst w,
  (0 < d_panels d <= length sst)%nat -> (d_panels d <= n)%nat -> rect w sst -> (cut c <= w / 2)%nat ->
  (2 <= w)%nat -> Nat.odd w = true ->
  d_middle d = true -> (w = d_max d \/ w = d_max d + 1)%nat ->
  input_pdl_from_sst sst d n true c = Err (Raised SizeMismatch).
Proof. exact input_sym_middle. Qed.
Print Assumptions C46_middle_ply_always_raises_refuted.

Example C46_example :
  let d := {| d_panels := 2; d_max := 8; d_middle := false |} in
  input_pdl_from_sst [[45; 0; -1; 90; 90; -1; 0; 45]; [45; 0; 30; 90; 90; 30; 0; 45]] d 2 true 1 =
    Ok [[1; 2; -1; 3; 3; -1; 2; 1]; [1; 2; 3; 4; 4; 3; 2; 1]] /\
  input_pdl_from_sst [[45; 0; -1; 90; 90; 30; 0; 45]; [45; 0; 30; 90; 90; 30; 0; 45]] d 2 false 2 =
    Ok [[1; 2; -1; 3; 4; 5; 6; 7]; [1; 2; 3; 4; 5; 6; 7; 8]] /\
  input_pdl_from_sst [[45; 0; 90; 0; 45]] {| d_panels := 1; d_max := 5; d_middle := true |} 1 true 1 =
    Err (Raised SizeMismatch).
Proof. vm_compute; auto. Qed.

(* ------------------------------------------------------------------ *)
(** ** C47 *)

(** the layouts kept are, in order, exactly those whose lines on both sides of every
    boundary - with the lines of the neighbouring groups, without the plies present on
    neither side - have their drops at least min_drop kept plies apart *)
Theorem C47_spacing_filter : forall pdl n md bs before after b a,
  b = match before with Some x => x | None => repeat [1] n end ->
  a = match after with Some x => x | None => repeat [1] n end ->
  (forall l i1 i2, In l pdl -> In (i1, i2) bs ->
     (i1 < length b)%nat /\ (i2 < length b)%nat /\ (i1 < length l)%nat /\ (i2 < length l)%nat /\
     (i1 < length a)%nat /\ (i2 < length a)%nat /\
     length (whole b l a i1) = length (whole b l a i2) /\
     seen (whole b l a i1) (whole b l a i2) <> []) ->
  exists p, ply_drops_rules pdl n md bs before after true = Ok (filter p pdl) /\
    forall l, In l pdl ->
      (p l = true <-> forall i1 i2, In (i1, i2) bs ->
         spaced md (seen (whole b l a i1) (whole b l a i2)) /\
         spaced md (seen2 (whole b l a i1) (whole b l a i2))).
Proof.
  intros pdl n md bs before after b a Hb Ha H. unfold ply_drops_rules. rewrite <- Hb, <- Ha.
  exists (fun l => match layout_ok md b l a bs with Ok x => x | Err _ => false end). split.
  - apply filterR_ok. intros l Hl.
    destruct (layout_ok_spec md b l a bs (fun i1 i2 Hin => H l i1 i2 Hl Hin)) as [x [-> _]]; auto.
  - intros l Hl. destruct (layout_ok_spec md b l a bs (fun i1 i2 Hin => H l i1 i2 Hl Hin)) as [x [-> Hx]]; auto.
Qed.
Print Assumptions C47_spacing_filter.

Theorem C47_rule_off : forall pdl n md bs before after,
  ply_drops_rules pdl n md bs before after false = Ok pdl.
Proof. reflexivity. Qed.
Print Assumptions C47_rule_off.

Example C47_example :
  ply_drops_rules [[[0; 1; 2; 3]; [-1; 1; 2; -1]]; [[0; 1; 2; 3]; [-1; -1; 2; 3]]] 2 2 [(0%nat, 1%nat)] None None true =
    Ok [[[0; 1; 2; 3]; [-1; 1; 2; -1]]].
Proof. vm_compute; reflexivity. Qed.
