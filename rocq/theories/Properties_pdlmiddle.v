(* Properties_pdlmiddle.v - C51 for a symmetric structure with a middle ply in one of its panels. *)
From Verif Require Import Base Uniq Divers Strip Spacing Format PdlTools Search SearchProofs PdlGroup PdlGroupProofs Properties_pdlgroup Divide Properties_divide PdlIni PdlIniProofs Properties_pdlini.
Local Open Scope Z_scope.

(** two panels, of 12 and 13 plies, one protected ply on each side: the group of plies next
    to the middle plane is full in both, only the thicker one has a ply in the middle *)
Definition middle_ini : ini_args :=
  {| i_sizes := [5]; i_panels := [[5]; [5]]; i_max := 13; i_has_middle := true; i_middle_indices := [0; 7];
     i_covering := 1; i_spacing := false; i_min_drop := 2; i_strip := {| s_boundaries := []; s_weights := [] |} |}.
Definition middle_rnd : randomness := fun _ => ([{| first_sample := []; deletions := [] |}], false).

Example C51_middle_example :
  divided true default_sizes [12; 13] middle_ini /\ draws_ok middle_ini middle_rnd /\
  (forall i, (i < 2)%nat -> nth i (i_middle_indices middle_ini) 0 =
     let n := nth i [12; 13] 0 in if Z.odd n then (n + 1) / 2 else 0) /\
  create_initial_pdl middle_ini true middle_rnd =
    Ok [[1; 2; 3; 4; 5; 6; 7; 6; 5; 4; 3; 2; 1]; [1; 2; 3; 4; 5; 6; 7; 6; 5; 4; 3; 2; 1]].
Proof.
  split; [|split; [|split]].
  - split; cbn [default_sizes g_min g_max middle_ini i_covering i_max i_panels i_sizes]; try lia; try discriminate.
    + exists 1. vm_compute. reflexivity.
    + repeat (constructor; [vm_compute; reflexivity|]). constructor.
    + intros n [<-|[<-|[]]]; lia.
  - intros g d Hg Hd. cbn in Hg. assert (g = 0%nat) by lia. subst g. cbn in Hd. destruct Hd as [<-|[]].
    cbn. unfold sample_of. repeat match goal with |- _ /\ _ => split end; try exact I; try reflexivity;
    try (intros i Hi; repeat destruct Hi as [<-|Hi]; try destruct Hi; repeat split; intros; (lia || discriminate));
    repeat (constructor; [cbn; intuition lia|]); try constructor.
  - intros [|[|i]] Hi; [reflexivity|reflexivity|lia].
  - vm_compute. reflexivity.
Qed.

(** with a middle ply the layout is not one of the structure: the panel with an even number
    of plies is given the ply of the middle plane, hence one ply too many *)
Theorem C51_middle_refuted : ~ (forall g ns a rnd pdl,
  divided true g ns a -> draws_ok a rnd ->
  create_initial_pdl a true rnd = Ok pdl -> structure_layout ns a pdl).
Proof.
  intros H. destruct C51_middle_example as [D [R [_ E]]].
  pose proof (sl_plies _ _ _ (H _ _ _ _ _ D R E) 0%nat ltac:(cbn; lia)) as P. vm_compute in P. discriminate P.
Qed.
Print Assumptions C51_middle_refuted.
