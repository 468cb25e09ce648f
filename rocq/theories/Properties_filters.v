(* Properties_filters.v - C44: the filters of groups of plies keep exactly the admissible
   rows. *)
From Verif Require Import Base Constraints Guidelines SpecGuidelines GuidelinesProofs GroupFilters GroupFiltersProofs.
Local Open Scope Z_scope.

(** [out] holds exactly the rows of [a] for which [good] holds, in their order, together
    with the rows of the second matrix, if there is one, that stood at the same places *)
Definition passed (good : list Z -> Prop) (a : rows) (a2 : option rows) (out : rows * option rows) : Prop :=
  exists p : list Z -> bool,
    (forall r, In r a -> (p r = true <-> good r)) /\
    fst out = filter p a /\
    snd out = option_map (fun m => map snd (filter (fun rm => p (fst rm)) (List.combine a m))) a2.

(** the matrices have rows of width [w], and as many rows if there are two *)
Definition matrix (w : nat) (a : rows) (a2 : option rows) : Prop :=
  (forall r, In r a -> length r = w) /\ (forall m, a2 = Some m -> length m = length a).

(** more than [n] consecutive equal plies, some of [before] and some of [after] *)
Definition joint_block (n : nat) (before after : list Z) : Prop :=
  exists x l1 l2, before ++ after = l1 ++ repeat x (S n) ++ l2 /\
    (length l1 < length before < length l1 + S n)%nat.

Theorem C44_internal_contig c w (a : rows) (a2 : option rows) :
  (contig c = true -> (2 <= n_contig c <= 6)%nat) -> matrix w a a2 ->
  exists out, internal_contig c w a a2 = Ok out /\
    passed (fun r => contig c = true -> contig_stack (n_contig c) r) a a2 out.
Proof.
  intros Hn [Hw H2]. unfold internal_contig.
  destruct (internal_contig_part_spec c w (a, a2) Hn) as [p [-> Hp]]; [intros _; exact H2|exact Hw|].
  eexists; split; [reflexivity|]. exists p; split; [intros r Hr; apply Hp, Hw, Hr|split; reflexivity].
Qed.

Theorem C44_internal_diso_contig c w (a : rows) (a2 : option rows) :
  (contig c = true -> (2 <= n_contig c <= 6)%nat) -> matrix w a a2 -> (forall r, In r a -> Forall angle_ok r) ->
  exists out, internal_diso_contig c w a a2 = Ok out /\
    passed (fun r => (diso c = true -> diso_stack (delta_angle c) r) /\
                     (contig c = true -> contig_stack (n_contig c) r)) a a2 out.
Proof.
  intros Hn [Hw H2] Ha. unfold internal_diso_contig.
  assert (S0 : step_ok true (a, a2)) by (intros _; exact H2).
  assert (D : exists q, (if diso c then sweep_all (diso_bad (delta_angle c) w) true (a, a2) else (a, a2)) = filtered true q (a, a2) /\
             forall r, In r a -> (q r = true <-> (diso c = true -> diso_stack (delta_angle c) r))).
  { destruct (diso c).
    - rewrite sweep_all_filtered by exact S0. eexists; split; [reflexivity|]; intros r Hr; cbv beta.
      rewrite diso_bad_spec by auto; split; auto.
    - exists (fun _ => true); rewrite filtered_true by exact S0; split; [reflexivity|]; intros r _; split; [discriminate|auto]. }
  destruct D as [q [-> Hq]].
  destruct (internal_contig_part_spec c w (filtered true q (a, a2)) Hn) as [p [-> Hp]].
  - apply filtered_step; exact S0.
  - cbn [fst filtered]; intros r Hr; apply filter_In in Hr; apply Hw; tauto.
  - rewrite filtered_twice by exact S0. eexists; split; [reflexivity|].
    exists (fun r => q r && p r)%bool; split; [|split; reflexivity].
    intros r Hr; rewrite andb_true_iff, Hq, Hp by auto; tauto.
Qed.

Theorem C44_external_contig_rows_partial c g w b (a : rows) (a2 : option rows) :
  (contig c = true -> (2 <= n_contig c <= 6)%nat) -> (1 <= g <= w)%nat -> (forall r, In r a -> length r = w) ->
  exists out, external_contig c g w b a a2 = Ok out /\
    passed (fun r => contig c = true -> ~ joint_block (n_contig c) b (firstn g r)) a None (fst out, None).
Proof.
  intros Hn Hg Hw. unfold external_contig, guard.
  destruct (Nat.ltb_spec w g); [lia|]; cbn [bind].
  destruct (ext_contig_part_spec false c g b (a, a2) Hn) as [p [-> Hp]]; [lia|discriminate| |].
  - cbn [fst]; intros r Hr; rewrite (Hw r Hr); lia.
  - eexists; split; [reflexivity|]. exists p; split; [|split; reflexivity].
    intros r Hr; apply Hp; rewrite (Hw r Hr); lia.
Qed.

Definition cons_ex : cons :=
  {| sym := true; bal := true; ipo := true; oopo := false; dam_tol := true; dam_tol_rule := 1;
     covering := true; n_covering := 1; rule_10_percent := false; rule_10_Abdalla := false; percent_Abdalla := 0%Q;
     percent_0 := 0%Q; percent_45 := 0%Q; percent_90 := 0%Q; percent_135 := 0%Q; percent_45_135 := 0%Q; percent_tot := 0%Q;
     diso := true; delta_angle := 45; contig := true; n_contig := 2; n_contig_c := Some 2%nat;
     set_of_angles := [-45; 0; 45; 90]; angles_bal := [(45, 2%nat, 0%nat)]; pdl_spacing := false; min_drop := 0 |}.

(** the second matrix of external_contig is not kept in step *)
Theorem C44_external_contig_second_refuted :
  ~ (forall c g w b a m, (contig c = true -> (2 <= n_contig c <= 6)%nat) -> (1 <= g <= w)%nat -> matrix w a (Some m) ->
     exists out, external_contig c g w b a (Some m) = Ok out /\
       passed (fun r => contig c = true -> ~ joint_block (n_contig c) b (firstn g r)) a (Some m) out).
Proof.
  intros H.
  destruct (H cons_ex 2%nat 2%nat [0] [[0; 0]] [[45; 45]]) as [out [E [p [Hp [E1 E2]]]]].
  - intros _; cbn; lia.
  - lia.
  - split; [intros r [<-|[]]; reflexivity|intros m Hm; injection Hm as <-; reflexivity].
  - vm_compute in E; injection E as <-. cbn in E1, E2. destruct (p [0; 0]); discriminate.
Qed.

Theorem C44_external_diso_contig c g w b (a : rows) (a2 : option rows) :
  (contig c = true -> (2 <= n_contig c <= 6)%nat) -> (1 <= g <= w)%nat -> matrix w a a2 ->
  Forall angle_ok b -> (forall r, In r a -> Forall angle_ok r) ->
  exists out, external_diso_contig c g w b a a2 = Ok out /\
    passed (fun r => (diso c = true -> forall b0 y x r0, b = b0 ++ [y] -> r = x :: r0 -> diso_ok (delta_angle c) y x) /\
                     (contig c = true -> ~ joint_block (n_contig c) b (firstn g r))) a a2 out.
Proof.
  intros Hn Hg [Hw H2] Hb Ha. unfold external_diso_contig, guard.
  destruct (Nat.ltb_spec w g); [lia|]; cbn [bind].
  assert (S0 : step_ok true (a, a2)) by (intros _; exact H2).
  assert (D : exists q, (if diso c then match b with [] => (a, a2) | _ => sweep_all (joint_bad (delta_angle c) b) true (a, a2) end else (a, a2)) = filtered true q (a, a2) /\
             forall r, In r a -> (q r = true <-> (diso c = true -> forall b0 y x r0, b = b0 ++ [y] -> r = x :: r0 -> diso_ok (delta_angle c) y x))).
  { destruct (diso c).
    2:{ exists (fun _ => true); rewrite filtered_true by exact S0; split; [reflexivity|]; intros r _; split; [discriminate|auto]. }
    destruct (rev b) as [|y rb] eqn:Eb.
    - apply (f_equal (@rev Z)) in Eb; rewrite rev_involutive in Eb; cbn in Eb; subst b.
      exists (fun _ => true); rewrite filtered_true by exact S0; split; [reflexivity|]; intros r _; split; [|auto].
      intros _ _ b0 y x r0 E; destruct b0; discriminate.
    - apply (f_equal (@rev Z)) in Eb; rewrite rev_involutive in Eb; cbn in Eb; subst b.
      set (bb := rev rb) in *. destruct (bb ++ [y]) as [|z b'] eqn:Eb; [destruct bb; discriminate|].
      rewrite <- Eb in *; clear Eb z b'.
      rewrite sweep_all_filtered by exact S0. eexists; split; [reflexivity|]. intros r Hr; cbv beta.
      unfold joint_bad, from_end. rewrite negb_involutive.
      rewrite app_length; cbn [length]; rewrite app_nth2 by lia.
      replace (length bb + 1 - 1 - length bb)%nat with 0%nat by lia; cbn [nth].
      pose proof (Hw r Hr) as Hl. destruct r as [|x r0]; [cbn in Hl; lia|]; cbn [nth].
      rewrite is_diso_comm, is_diso_spec.
      + split.
        * intros G _ b0 y' x' r0' E1 E2; apply app_inj_tail in E1; destruct E1 as [_ <-]; injection E2 as -> _; exact G.
        * intros G; exact (G eq_refl bb y x r0 eq_refl eq_refl).
      + rewrite Forall_forall in Hb; apply Hb, in_or_app; right; now left.
      + specialize (Ha _ Hr); inversion Ha; assumption. }
  destruct D as [q [-> Hq]].
  destruct (ext_contig_part_spec true c g b (filtered true q (a, a2)) Hn) as [p [-> Hp]]; [lia| | |].
  - apply filtered_step; exact S0.
  - cbn [fst filtered]; intros r Hr; apply filter_In in Hr; rewrite (Hw r) by tauto; lia.
  - rewrite filtered_twice by exact S0. eexists; split; [reflexivity|].
    exists (fun r => q r && p r)%bool; split; [|split; reflexivity].
    intros r Hr; rewrite andb_true_iff, Hq, Hp by (auto; rewrite (Hw r Hr); lia); tauto.
Qed.

(** non-vacuous: of four groups of two plies behind [45; 0], exactly one is kept *)
Example C44_example :
  matrix 2 [[0; 0]; [90; 0]; [0; 45]; [90; 90]] (Some [[1]; [2]; [3]; [4]]) /\
  external_diso_contig cons_ex 2 2 [45; 0] [[0; 0]; [90; 0]; [0; 45]; [90; 90]] (Some [[1]; [2]; [3]; [4]]) = Ok ([[0; 45]], Some [[3]]) /\
  internal_diso_contig cons_ex 3 [[0; 0; 0]; [90; 0; 45]; [0; 45; 90]] (Some [[1]; [2]; [3]]) = Ok ([[0; 45; 90]], Some [[3]]) /\
  joint_block 2 [45; 0] (firstn 2 [0; 0]).
Proof.
  split; [|split; [reflexivity|split; [reflexivity|]]].
  - split; [intros r Hr; cbn in Hr; intuition (subst; reflexivity)|intros m Hm; injection Hm as <-; reflexivity].
  - exists 0, [45], []; cbn; split; [reflexivity|lia].
Qed.
