(* Properties_laylainputs.v - property theorems C88 (constraints and parameters of LAYLA). *)
From Verif Require Import Base Uniq Constraints Guidelines SpecGuidelines ConstraintsProofs Properties_guidelines Panel PanelProofs Inputs Properties_inputs Layla Properties_layla2 LaylaInputs.
From Coq Require Import Lqa Qminmax Qround.
Local Open Scope Z_scope.

(* ------------------------------------------------------------------ *)
(** ** Constraints *)

(** v is a percentage q *)
Definition percentage (v : pyval) (q : Q) : Prop := the_number v q /\ (0 <= q /\ q <= 100)%Q.
Definition is_bool (v : pyval) : Prop := exists b, v = VBool b.
(** valid arguments of the constraints *)
Record valid_layla (a : lcargs) : Prop := {
  v_sym : is_bool (y_sym a); v_bal : is_bool (y_bal a); v_ipo : is_bool (y_ipo a); v_oopo : is_bool (y_oopo a);
  v_dam_tol : is_bool (y_dam_tol a); v_rule_10 : is_bool (y_rule_10 a); v_diso : is_bool (y_diso a); v_contig : is_bool (y_contig a);
  v_rule : y_dam_tol a = VBool true -> (1 <= y_dam_rule a <= 3)%nat;
  v_0 : exists q, percentage (y_0 a) q; v_45 : exists q, percentage (y_45 a) q; v_90 : exists q, percentage (y_90 a) q;
  v_135 : exists q, percentage (y_135 a) q; v_45_135 : exists q, percentage (y_45_135 a) q;
  v_n_contig : y_contig a = VBool true -> y_n_contig a <> 1%nat;
  v_distinct : NoDup (y_angles a); v_range : forall x, In x (y_angles a) -> -90 < x <= 90;
  v_opposite : forall x, In x (y_angles a) -> x <> 90 -> In (- x) (y_angles a);
  v_angle_ply : exists x, In x (y_angles a) /\ 0 < x < 90;
  v_ten : y_rule_10 a = VBool true -> forall x, In x [0; 45; 90; -45] -> In x (y_angles a) }.
(** what the object holds *)
Record holds_layla (a : lcargs) (c : cons) : Prop := {
  h_sym : y_sym a = VBool (sym c); h_bal : y_bal a = VBool (bal c); h_oopo : y_oopo a = VBool (oopo c);
  h_ipo : ipo c = true <-> y_ipo a = VBool true \/ y_bal a = VBool true;
  h_dam_tol : y_dam_tol a = VBool (dam_tol c); h_rule : dam_tol_rule c = if dam_tol c then y_dam_rule a else 0%nat;
  h_rule_10 : y_rule_10 a = VBool (rule_10_percent c);
  h_no_minima : rule_10_percent c = false ->
    (percent_0 c == 0 /\ percent_45 c == 0 /\ percent_90 c == 0 /\ percent_135 c == 0 /\ percent_45_135 c == 0 /\ percent_tot c == 0)%Q;
  h_minima : rule_10_percent c = true -> forall q0 q45 q90 q135 q45_135,
    the_number (y_0 a) q0 -> the_number (y_45 a) q45 -> the_number (y_90 a) q90 -> the_number (y_135 a) q135 -> the_number (y_45_135 a) q45_135 ->
    (percent_0 c * 100 == q0 /\ percent_45 c * 100 == q45 /\ percent_90 c * 100 == q90 /\ percent_135 c * 100 == q135 /\
     percent_45_135 c * 100 == Qmax q45_135 (q45 + q135) /\ percent_tot c == percent_0 c + percent_45_135 c + percent_90 c)%Q;
  h_diso : y_diso a = VBool (diso c); h_delta : delta_angle c = if diso c then y_delta a else 180;
  h_contig : y_contig a = VBool (contig c); h_n_contig : n_contig c = if contig c then y_n_contig a else 1%nat;
  h_n_contig_c : n_contig_c c = if contig c then Some (y_n_contig a) else None;
  h_sorted : StronglySorted Z.lt (set_of_angles c); h_angles : forall x, In x (set_of_angles c) <-> In x (y_angles a);
  h_angles_bal : good_bal (set_of_angles c) (angles_bal c) }.

Lemma is_bool_ok v : is_bool v <-> exists b, a_bool v = Ok b.
Proof. unfold is_bool. split; intros [b H]; exists b; apply a_bool_ok; exact H. Qed.
Lemma good_angles_layla a r : y_rule_10 a = VBool r ->
  (good_angles r (y_angles a) <->
   NoDup (y_angles a) /\ (forall x, In x (y_angles a) -> -90 < x <= 90) /\ (forall x, In x (y_angles a) -> x <> 90 -> In (- x) (y_angles a)) /\
   (exists x, In x (y_angles a) /\ 0 < x < 90) /\ (y_rule_10 a = VBool true -> forall x, In x [0; 45; 90; -45] -> In x (y_angles a))).
Proof.
  intros ->. unfold good_angles. rewrite Forall_forall. unfold angle_ok. split; intros (A & B & C & D & F); repeat split; auto; try (apply B; assumption).
  - intros [= ->] x. destruct (F eq_refl) as (F1 & F2 & F3 & F4). cbn. intros [<-|[<-|[<-|[<-|[]]]]]; assumption.
  - apply F; [congruence|cbn; auto].
  - apply F; [congruence|cbn; auto].
  - apply F; [congruence|cbn; auto].
  - apply F; [congruence|cbn; auto].
Qed.
Lemma percentages_ok r a b d e f p : l_set_percentages r a b d e f = Ok p ->
  exists q0 q45 q90 q135 q45_135, percentage a q0 /\ percentage b q45 /\ percentage d q90 /\ percentage e q135 /\ percentage f q45_135 /\
    p = if r then ((q0 / 100)%Q, (q45 / 100)%Q, (q90 / 100)%Q, (q135 / 100)%Q, (Qmaxb q45_135 (q45 + q135) / 100)%Q,
                   Qmaxb (q0 / 100 + q45 / 100 + q90 / 100 + q135 / 100) (q0 / 100 + Qmaxb q45_135 (q45 + q135) / 100 + q90 / 100))
        else (0%Q, 0%Q, 0%Q, 0%Q, 0%Q, 0%Q).
Proof.
  unfold l_set_percentages, a_percentage. intros H.
  repeat match type of H with bind ?r _ = Ok _ => let x := fresh "x" in let Hx := fresh "Hx" in apply Properties_inputs.bind_ok in H; destruct H as (x & Hx & H) end.
  repeat match goal with u : unit |- _ => destruct u end.
  repeat match goal with G : guard _ _ = Ok tt |- _ => apply Properties_inputs.guard_ok, pc_bad_false in G end.
  repeat match goal with G : a_number _ = Ok _ |- _ => apply a_number_ok in G end.
  assert (U : forall v x y, summand v = Ok x -> the_number v y -> x = y).
  { intros v u w S1 S2. unfold summand in S1. apply as_number_ok in S2. rewrite S2 in S1. congruence. }
  rewrite (U _ _ _ Hx ltac:(eassumption)), (U _ _ _ Hx0 ltac:(eassumption)), (U _ _ _ Hx1 ltac:(eassumption)) in H.
  unfold percentage, pct_ok in *. do 5 eexists. repeat (split; [split; eassumption|]). destruct r; congruence.
Qed.
Lemma percentages_total r a b d e f : (exists q, percentage a q) -> (exists q, percentage b q) -> (exists q, percentage d q) -> (exists q, percentage e q) -> (exists q, percentage f q) ->
  exists p, l_set_percentages r a b d e f = Ok p.
Proof.
  intros [q0 [A A']] [q1 [B B']] [q2 [D D']] [q3 [F F']] [q4 [G G']]. unfold l_set_percentages, a_percentage, summand.
  pose proof (proj2 (as_number_ok _ _) B) as B2. pose proof (proj2 (as_number_ok _ _) F) as F2. pose proof (proj2 (as_number_ok _ _) G) as G2. rewrite B2, F2, G2. cbn [bind].
  rewrite (proj2 (a_number_ok _ _) A), (proj2 (a_number_ok _ _) B), (proj2 (a_number_ok _ _) D), (proj2 (a_number_ok _ _) F), (proj2 (a_number_ok _ _) G). cbn [bind].
  apply pc_bad_false in A', B', D', F', G'. rewrite A', B', D', F', G'. cbn [guard bind]. destruct r; eauto.
Qed.

(** constraints are created exactly from valid arguments *)
Theorem C88_constraints_accepted : forall a, (exists c, mk_layla_cons a = Ok c) <-> valid_layla a.
Proof.
  intros a. unfold mk_layla_cons. split.
  - intros [c H].
    repeat match type of H with
    | bind ?r _ = Ok _ => let x := fresh "x" in let Hx := fresh "Hx" in apply Properties_inputs.bind_ok in H; destruct H as (x & Hx & H)
    | (let '(_) := ?p in _) = Ok _ => destruct p as [[[[[? ?] ?] ?] ?] ?]
    end. clear H.
    repeat match goal with u : unit |- _ => destruct u end.
    repeat match goal with G : a_bool _ = Ok _ |- _ => apply a_bool_ok in G end.
    repeat match goal with G : guard _ _ = Ok tt |- _ => apply Properties_inputs.guard_ok in G end.
    apply percentages_ok in Hx3. destruct Hx3 as (t0 & t45 & t90 & t135 & t45_135 & P0 & P1 & P2 & P3 & P4 & _).
    match goal with G : set_fibre_orientations _ _ = Ok ?s |- _ => pose proof (proj1 (set_fibre_spec _ _) (ex_intro _ s G)) as GA end.
    apply (good_angles_layla a) in GA; [|assumption]. destruct GA as (A1 & A2 & A3 & A4 & A5).
    constructor; try (eexists; eassumption); auto.
    + intros E. assert (x0 = true) by congruence. subst x0. cbn [andb] in *.
      match goal with G : negb (existsb _ _) = false |- _ => apply negb_false_iff, existsb_exists in G; destruct G as (r & Hr & E2) end. apply Nat.eqb_eq in E2. cbn in Hr. lia.
    + intros E. match goal with G : (?k && Nat.eqb _ 1)%bool = false |- _ => assert (k = true) by congruence; subst k; cbn [andb] in G; apply Nat.eqb_neq in G; exact G end.
  - intros []. destruct v_sym0 as [s Es], v_bal0 as [b Eb], v_ipo0 as [i Ei], v_oopo0 as [o Eo], v_dam_tol0 as [dt Ed], v_rule_11 as [r Er], v_diso0 as [d Edi], v_contig0 as [k Ek].
    destruct (percentages_total r _ _ _ _ _ v_1 v_46 v_91 v_136 v_45_136) as [p Ep].
    rewrite Es, Ed, Er, Edi, Ek, Ei, Eo, Eb. cbn [a_bool as_bool bind].
    assert (G1 : (dt && negb (existsb (Nat.eqb (y_dam_rule a)) [1; 2; 3]%nat))%bool = false).
    { destruct dt; [|reflexivity]. cbn [andb]. apply negb_false_iff, existsb_exists. exists (y_dam_rule a). split; [specialize (v_rule0 Ed); cbn; lia|apply Nat.eqb_refl]. }
    rewrite G1. cbn [guard bind]. rewrite Ep. cbn [bind]. destruct p as [[[[[? ?] ?] ?] ?] ?].
    assert (G2 : (k && Nat.eqb (y_n_contig a) 1)%bool = false). { destruct k; [|reflexivity]. cbn [andb]. apply Nat.eqb_neq. auto. }
    rewrite G2. cbn [guard bind].
    destruct (proj2 (set_fibre_spec (y_angles a) r)) as [sa Esa]. { apply (good_angles_layla a r Er). auto. }
    rewrite Esa. cbn [bind]. eauto.
Qed.
Print Assumptions C88_constraints_accepted.

Lemma Qmaxb_Qmax x y : (Qmaxb x y == Qmax x y)%Q.
Proof.
  unfold Qmaxb. destruct (Qltb x y) eqn:E.
  - unfold Qltb in E. apply negb_true_iff in E. symmetry. apply Q.max_r. apply Qlt_le_weak. apply Qnot_le_lt. intros X. apply Qle_bool_iff in X. congruence.
  - unfold Qltb in E. apply negb_false_iff, Qle_bool_iff in E. symmetry. apply Q.max_l. exact E.
Qed.
Lemma number_unique v x y : the_number v x -> the_number v y -> x = y.
Proof. intros A B. apply as_number_ok in A, B. congruence. Qed.

(** and hold what was asked: balance implies in-plane orthotropy, the minima are shares, the minimum
    of +45 and -45 together is at least the sum of the two, without a rule its data are neutral *)
Theorem C88_constraints_hold : forall a c, mk_layla_cons a = Ok c -> holds_layla a c.
Proof.
  intros a c H. unfold mk_layla_cons in H.
  repeat match type of H with
  | bind ?r _ = Ok _ => let x := fresh "x" in let Hx := fresh "Hx" in apply Properties_inputs.bind_ok in H; destruct H as (x & Hx & H)
  | (let '(_) := ?p in _) = Ok _ => destruct p as [[[[[? ?] ?] ?] ?] ?]
  end.
  repeat match goal with u : unit |- _ => destruct u end.
  repeat match goal with G : a_bool _ = Ok _ |- _ => apply a_bool_ok in G end.
  apply percentages_ok in Hx3. destruct Hx3 as (t0 & t45 & t90 & t135 & t45_135 & P0 & P1 & P2 & P3 & P4 & Ep).
  match goal with G : set_fibre_orientations _ _ = Ok _ |- _ => apply set_fibre_result in G; destruct G as [F1 F2] end.
  injection H as <-. constructor; cbn; try assumption; try reflexivity.
  - rewrite Hx8, Hx10. split.
    + destruct x9; [auto|]. intros ->. auto.
    + intros [[= ->]|[= ->]]; [destruct x9; reflexivity|reflexivity].
  - intros ->. injection Ep as -> -> -> -> -> ->. repeat split; reflexivity.
  - intros -> u0 u45 u90 u135 u45_135 N0 N1 N2 N3 N4. injection Ep as -> -> -> -> -> ->.
    rewrite (number_unique _ _ _ N0 (proj1 P0)), (number_unique _ _ _ N1 (proj1 P1)), (number_unique _ _ _ N2 (proj1 P2)), (number_unique _ _ _ N3 (proj1 P3)), (number_unique _ _ _ N4 (proj1 P4)).
    pose proof (Q.le_max_r t45_135 (t45 + t135)) as M. pose proof (Qmaxb_Qmax t45_135 (t45 + t135)) as X. set (m := Qmax t45_135 (t45 + t135)) in *. set (m' := Qmaxb t45_135 (t45 + t135)) in *. clearbody m m'.
    assert (D : forall q, (q / 100 * 100 == q)%Q) by (intros q; field).
    split; [apply D|]. split; [apply D|]. split; [apply D|]. split; [apply D|]. split; [rewrite D; exact X|].
    unfold Qmaxb. assert (T : (t0 / 100 + t45 / 100 + t90 / 100 + t135 / 100 <= t0 / 100 + m' / 100 + t90 / 100)%Q) by (rewrite (div100 t0), (div100 t45), (div100 t90), (div100 t135), (div100 m'); lra).
    destruct (Qltb _ _) eqn:E; [reflexivity|]. unfold Qltb in E. apply negb_false_iff, Qle_bool_iff in E. apply Qle_antisym; assumption.
  - rewrite F1. apply uniq_ssorted.
  - intros y. rewrite F1. apply uniq_in.
  - rewrite F1. exact F2.
Qed.
Print Assumptions C88_constraints_hold.

(** minima that no laminate can reach are accepted, and the minimum of +45 and -45 together can
    even exceed the whole laminate *)
Definition two_minima (p0 p90 p45 p135 : Z) : lcargs :=
  {| y_sym := VBool true; y_bal := VBool true; y_ipo := VBool false; y_oopo := VBool false; y_dam_tol := VBool false; y_rule_10 := VBool true;
     y_0 := VInt p0; y_45 := VInt p45; y_90 := VInt p90; y_135 := VInt p135; y_45_135 := VInt 0;
     y_diso := VBool true; y_contig := VBool true; y_n_contig := 5; y_delta := 45; y_dam_rule := 2; y_angles := [0; 45; 90; -45] |}.
Lemma count_two (a b : Z) l : a <> b -> (count_occ Z.eq_dec l a + count_occ Z.eq_dec l b <= length l)%nat.
Proof. intros N. induction l as [|x l IH]; [cbn; lia|]. cbn [count_occ length]. destruct (Z.eq_dec x a), (Z.eq_dec x b); subst; try lia; congruence. Qed.
Theorem C88_reachable_minima_refuted :
  (exists c, mk_layla_cons (two_minima 60 60 0 0) = Ok c /\ rule_10_percent c = true /\
    forall ss, ss <> [] -> ~ (percent_0 c <= share_of 0 ss /\ percent_90 c <= share_of 90 ss)%Q) /\
  (exists c, mk_layla_cons (two_minima 0 0 100 100) = Ok c /\ (percent_45_135 c == 2)%Q).
Proof.
  split; (eexists; split; [vm_compute; reflexivity|]); [|reflexivity]. split; [reflexivity|]. cbn [percent_0 percent_90].
  intros ss N [A B]. unfold share_of in *. pose proof (count_two 0 90 ss ltac:(discriminate)) as T.
  assert (L : (0 < inject_Z (Z.of_nat (length ss)))%Q). { change 0%Q with (inject_Z 0). rewrite <- Zlt_Qlt. destruct ss; [congruence|cbn [length]; lia]. }
  assert (C : forall m x, ((60 # 100) <= m / x -> 0 < x -> (60 # 100) * x <= m)%Q).
  { intros m x Hm Hx. apply (Qmult_le_compat_r _ _ x) in Hm; [|apply Qlt_le_weak; exact Hx]. unfold Qdiv in Hm. rewrite <- Qmult_assoc, (Qmult_comm (/ x)), Qmult_inv_r, Qmult_1_r in Hm; [exact Hm|]. intros X. rewrite X in Hx. exact (Qlt_irrefl _ Hx). }
  apply C in A; [|exact L]. apply C in B; [|exact L].
  assert (T' : (inject_Z (Z.of_nat (count_occ Z.eq_dec ss 0%Z)) + inject_Z (Z.of_nat (count_occ Z.eq_dec ss 90%Z)) <= inject_Z (Z.of_nat (length ss)))%Q) by (rewrite <- inject_Z_plus, <- Zle_Qle; lia).
  lra.
Qed.
Print Assumptions C88_reachable_minima_refuted.
(** and contiguity limits that the check of the rule does not support *)
Definition long_blocks (n : nat) : lcargs :=
  {| y_sym := VBool false; y_bal := VBool false; y_ipo := VBool false; y_oopo := VBool false; y_dam_tol := VBool false; y_rule_10 := VBool false;
     y_0 := VInt 0; y_45 := VInt 0; y_90 := VInt 0; y_135 := VInt 0; y_45_135 := VInt 0;
     y_diso := VBool false; y_contig := VBool true; y_n_contig := n; y_delta := 45; y_dam_rule := 2; y_angles := [0; 45; 90; -45] |}.
Theorem C88_contiguity_limit_refuted : forall n, (n = 0 \/ 6 < n)%nat ->
  exists c, mk_layla_cons (long_blocks n) = Ok c /\ contig c = true /\
    forall ss, (n < length ss)%nat -> is_contig ss (n_contig c) = Err (Raised NotCoded).
Proof.
  intros n Hn. destruct (proj2 (C88_constraints_accepted (long_blocks n))) as [c E].
  { constructor; cbn; try (eexists; reflexivity); try discriminate; try (exists 0%Q; split; [right; exists 0; split; [left; reflexivity|reflexivity]|split; discriminate]).
    - lia.
    - repeat constructor; cbn; intuition discriminate.
    - intuition lia.
    - intuition lia.
    - exists 45. cbn. intuition lia. }
  exists c. split; [exact E|]. destruct (C88_constraints_hold _ _ E). cbn in *. assert (K : contig c = true) by congruence. split; [exact K|].
  intros ss L. rewrite h_n_contig0, K. apply Properties_guidelines.C03_other_limits_raise. lia.
Qed.
Print Assumptions C88_contiguity_limit_refuted.
Example C88_constraints_example : (exists c, mk_layla_cons default_layla = Ok c) /\
  (exists c, mk_layla_cons (two_minima 10 10 5 10) = Ok c /\ ipo c = true /\ n_contig c = 5%nat /\ (percent_45_135 c == 15 # 100)%Q /\ (percent_tot c == 35 # 100)%Q) /\
  mk_layla_cons (two_minima 10 101 5 10) = Err (Raised BadDefinition) /\ mk_layla_cons (long_blocks 1) = Err (Raised BadDefinition).
Proof. split; [eexists; vm_compute; reflexivity|]. split; [eexists; split; [vm_compute; reflexivity|repeat split]|split; vm_compute; reflexivity]. Qed.

(* ------------------------------------------------------------------ *)
(** ** Parameters *)

(** a value that counts as true (an object that is neither a number nor a boolean does here) *)
Definition on (v : pyval) : Prop :=
  match v with VInt z => z <> 0 | VBool b => b = true | VFloat q => ~ (q == 0)%Q | VOther => True end.
(** v is the coefficient q: a number, not negative *)
Definition coefficient (v : pyval) (q : Q) : Prop := the_number v q /\ (0 <= q)%Q.
(** the maximum group sizes: the same integer for every step, or an array *)
Definition the_sizes (v : sizes_arg) (outer : Z) (l : list Q) : Prop :=
  v = Sizes l \/ exists u z, v = Size u /\ the_int u z /\ l = repeat (inject_Z z) (Z.to_nat outer).
(** the arguments are valid for the constraints c, and p holds their values *)
Record stored_layla (c : cons) (a : lpargs) (p : lparams) : Prop := {
  s_outer : limit (z_outer a) (w_outer p);
  s_ten : if rule_10_percent c
          then z_10_pc a = VBool (w_10_pc p) /\ z_10_lampam a = VBool (w_10_lampam p) /\ coefficient (z_coeff_10 a) (w_coeff_10 p)
          else w_10_pc p = false /\ w_10_lampam p = false /\ w_coeff_10 p = 0%Q;
  s_one_ten : ~ (on (z_10_pc a) /\ on (z_10_lampam a)); s_cons : w_cons_10_pc p = z_10_pc a;
  s_bal : if bal c then z_bal a = VBool (w_bal p) else w_bal p = false;
  s_ipo : if ipo c then z_ipo a = VBool (w_ipo p) /\ coefficient (z_coeff_bal_ipo a) (w_coeff_bal_ipo p) else w_ipo p = false /\ w_coeff_bal_ipo p = 0%Q;
  s_one_bal : ~ (on (z_ipo a) /\ on (z_bal a));
  s_oopo : if oopo c then coefficient (z_coeff_oopo a) (w_coeff_oopo p) else w_coeff_oopo p = 0%Q;
  s_membrane : z_membrane a = VBool (w_membrane p); s_flexural : z_flexural a = VBool (w_flexural p);
  s_p_A : the_number (z_p_A a) (w_p_A p) /\ (0 <= w_p_A p <= 100)%Q;
  s_D1 : the_int (z_n_D1 a) (w_n_D1 p); s_D2 : the_int (z_n_D2 a) (w_n_D2 p); s_D3 : the_int (z_n_D3 a) (w_n_D3 p);
  s_min : limit (z_group_min a) (w_group_min p); s_contig : Z.of_nat (n_contig c) <= w_group_min p;
  s_max : exists l, the_sizes (z_group_max a) (w_outer p) l /\ w_group_max p = map Qfloor l /\
    (forall x, In x l -> (inject_Z (w_group_min p) <= x)%Q) /\ w_outer p <= zlen l;
  s_global : limit (z_global a) (w_global p); s_global_p : limit (z_global_p a) (w_global_p p);
  s_local : limit (z_local a) (w_local p); s_local_final : limit (z_local_final a) (w_local_final p);
  s_sens : length (z_sens a) = 12%nat /\ (forall x, In x (z_sens a) -> 0 <= x)%Q /\ w_sens p = z_sens a;
  s_tbo : length (z_tbo a) = 12%nat /\ (forall x, In x (z_tbo a) -> x == 0 \/ x == 1)%Q /\ w_tbo p = z_tbo a;
  s_weights : exists std : bool, (std = true <-> forall x, In x (set_of_angles c) <-> In x [0; 45; -45; 90]) /\
    weights_calculation (sym c) std (ipo c) (w_ipo p) (oopo c) (w_coeff_bal_ipo p) (w_coeff_oopo p) (z_sens a) (z_tbo a) = Ok (w_final p, w_ini p);
  s_finalA : w_finalA p = option_map (fun l => l_normalised (firstn 4 l)) (w_final p);
  s_finalD : w_finalD p = option_map (fun l => l_normalised (firstn 4 (skipn 8 l))) (w_final p) }.

Lemma truthy_on v : truthy v = true <-> on v.
Proof.
  destruct v as [z|b|q|]; cbn; [|tauto| |tauto].
  - rewrite negb_true_iff, Z.eqb_neq. tauto.
  - rewrite negb_true_iff. rewrite <- not_true_iff_false, Qeq_bool_iff. tauto.
Qed.
Lemma both_off u v e : guard (truthy u && truthy v) e = Ok tt <-> ~ (on u /\ on v).
Proof. rewrite Properties_inputs.guard_ok, <- (truthy_on u), <- (truthy_on v). destruct (truthy u), (truthy v); cbn; intuition congruence. Qed.
Lemma a_coeff_ok v q : a_coeff v = Ok q <-> coefficient v q.
Proof.
  unfold a_coeff, coefficient. rewrite <- a_number_ok. destruct (a_number v) as [x|e]; cbn [bind]; [|split; [discriminate|intros [? _]; discriminate]].
  unfold guard, Qltb. destruct (Qle_bool 0 x) eqn:E; cbn [negb bind].
  - apply Qle_bool_iff in E. split; [intros X; assert (x = q) by congruence; subst; auto|intros [X _]; exact X].
  - split; [discriminate|]. intros [X Y]. assert (x = q) by congruence. subst x. apply Qle_bool_iff in Y. congruence.
Qed.
Lemma standard_ok c : standard c = true <-> forall x, In x (set_of_angles c) <-> In x [0; 45; -45; 90].
Proof.
  unfold standard. rewrite andb_true_iff, !forallb_forall. split.
  - intros [A B] x. split; intros Hx; [apply B in Hx|apply A in Hx]; apply memb_true in Hx; exact Hx.
  - intros H. split; intros x Hx; apply memb_true; apply H; exact Hx.
Qed.
Lemma to_int_floor q : (0 <= q)%Q -> to_int q = Qfloor q.
Proof. intros H. unfold to_int, Qfloor. destruct q as [n d]. cbn. unfold Qle in H. cbn in H. apply Z.quot_div_nonneg; lia. Qed.
Lemma all_at_least m l e : guard (existsb (fun el => Qltb el m) l) e = Ok tt <-> forall x, In x l -> (m <= x)%Q.
Proof.
  rewrite Properties_inputs.guard_ok. split.
  - intros H x Hx. destruct (Qltb x m) eqn:E; [|unfold Qltb in E; apply negb_false_iff, Qle_bool_iff in E; exact E].
    assert (existsb (fun el => Qltb el m) l = true) by (apply existsb_exists; eauto). congruence.
  - intros H. apply not_true_iff_false. intros X. apply existsb_exists in X. destruct X as (x & Hx & E). specialize (H x Hx). unfold Qltb in E. apply negb_true_iff in E. apply Qle_bool_iff in H. congruence.
Qed.
Lemma all_01 l e : guard (existsb (fun x => negb (Qeq_bool x 0 || Qeq_bool x 1)) l) e = Ok tt <-> forall x, In x l -> (x == 0 \/ x == 1)%Q.
Proof.
  rewrite Properties_inputs.guard_ok. split.
  - intros H x Hx. destruct (Qeq_bool x 0 || Qeq_bool x 1)%bool eqn:E; [apply orb_true_iff in E; rewrite !Qeq_bool_iff in E; exact E|].
    assert (existsb (fun x => negb (Qeq_bool x 0 || Qeq_bool x 1)) l = true) by (apply existsb_exists; exists x; rewrite E; auto). congruence.
  - intros H. apply not_true_iff_false. intros X. apply existsb_exists in X. destruct X as (x & Hx & E). apply negb_true_iff, orb_false_iff in E. rewrite <- !not_true_iff_false, !Qeq_bool_iff in E. destruct (H x Hx); tauto.
Qed.
Lemma sizes_12 a b e : guard (negb (Nat.eqb (length a) 12 && Nat.eqb (length b) 12)) e = Ok tt <-> length (a : list Q) = 12%nat /\ length (b : list Q) = 12%nat.
Proof. rewrite Properties_inputs.guard_ok, negb_false_iff, andb_true_iff, !Nat.eqb_eq. tauto. Qed.
Lemma lt_guard x y e : guard (x <? y) e = Ok tt <-> y <= x.
Proof. rewrite Properties_inputs.guard_ok, Z.ltb_ge. tauto. Qed.
Lemma within p e : guard (negb (Qle_bool 0 p && Qle_bool p 100)) e = Ok tt <-> (0 <= p <= 100)%Q.
Proof. rewrite Properties_inputs.guard_ok, negb_false_iff, andb_true_iff, !Qle_bool_iff. tauto. Qed.
Lemma sizes_of_ok v outer l : sizes_of v outer = Ok l <-> the_sizes v outer l.
Proof.
  unfold sizes_of, the_sizes. destruct v as [u|l'].
  - destruct (as_int u) as [z|] eqn:E.
    + apply as_int_ok in E. split; [intros H; right; exists u, z; split; [reflexivity|split; [exact E|congruence]]|].
      intros [H|(u' & z' & [= <-] & I & ->)]; [discriminate|]. apply as_int_ok in E, I. rewrite E in I. injection I as ->. reflexivity.
    + split; [discriminate|]. intros [H|(u' & z' & [= <-] & I & _)]; [discriminate|]. apply as_int_ok in I. congruence.
  - split; [intros H; left; congruence|]. intros [[= ->]|(u & z & H & _)]; [reflexivity|discriminate].
Qed.
Lemma floors l m : 1 <= m -> (forall x, In x l -> (inject_Z m <= x)%Q) -> map to_int l = map Qfloor l.
Proof.
  intros M H. apply map_ext_in. intros x Hx. apply to_int_floor. apply Qle_trans with (inject_Z m); [|auto]. change 0%Q with (inject_Z 0). rewrite <- Zle_Qle. lia.
Qed.

(** parameters are created exactly from valid arguments, and hold the values given *)
Theorem C88_parameters : forall c a p, mk_layla_params c a = Ok p <-> stored_layla c a p.
Proof.
  intros c a p. unfold mk_layla_params. split.
  - intros H.
    apply Properties_inputs.bind_ok in H; destruct H as (outer & Ho & H). apply a_limit_ok in Ho.
    apply Properties_inputs.bind_ok in H; destruct H as ([[pc lam] c10] & H10 & H).
    apply Properties_inputs.bind_ok in H; destruct H as ([] & H1 & H). apply both_off in H1.
    apply Properties_inputs.bind_ok in H; destruct H as (sbal & Hbal & H).
    apply Properties_inputs.bind_ok in H; destruct H as ([sipo cbi] & Hipo & H).
    apply Properties_inputs.bind_ok in H; destruct H as ([] & H2 & H). apply both_off in H2.
    apply Properties_inputs.bind_ok in H; destruct H as (coo & Hoo & H).
    apply Properties_inputs.bind_ok in H; destruct H as (mem & Hmem & H). apply a_bool_ok in Hmem.
    apply Properties_inputs.bind_ok in H; destruct H as (flex & Hflex & H). apply a_bool_ok in Hflex.
    apply Properties_inputs.bind_ok in H; destruct H as (p_A & HpA & H). apply a_number_ok in HpA.
    apply Properties_inputs.bind_ok in H; destruct H as ([] & H3 & H). apply within in H3.
    apply Properties_inputs.bind_ok in H; destruct H as (n1 & Hn1 & H). apply an_int_ok in Hn1.
    apply Properties_inputs.bind_ok in H; destruct H as (n2 & Hn2 & H). apply an_int_ok in Hn2.
    apply Properties_inputs.bind_ok in H; destruct H as (n3 & Hn3 & H). apply an_int_ok in Hn3.
    apply Properties_inputs.bind_ok in H; destruct H as (gmin & Hmin & H). apply a_limit_ok in Hmin.
    apply Properties_inputs.bind_ok in H; destruct H as ([] & H4 & H). apply lt_guard in H4.
    apply Properties_inputs.bind_ok in H; destruct H as (l & Hl & H). apply sizes_of_ok in Hl.
    apply Properties_inputs.bind_ok in H; destruct H as ([] & H5 & H). pose proof (proj1 (all_at_least _ _ _) H5) as H5'. clear H5. rename H5' into H5.
    apply Properties_inputs.bind_ok in H; destruct H as ([] & H6 & H). apply lt_guard in H6.
    apply Properties_inputs.bind_ok in H; destruct H as (g1 & Hg1 & H). apply a_limit_ok in Hg1.
    apply Properties_inputs.bind_ok in H; destruct H as (g2 & Hg2 & H). apply a_limit_ok in Hg2.
    apply Properties_inputs.bind_ok in H; destruct H as (g3 & Hg3 & H). apply a_limit_ok in Hg3.
    apply Properties_inputs.bind_ok in H; destruct H as (g4 & Hg4 & H). apply a_limit_ok in Hg4.
    apply Properties_inputs.bind_ok in H; destruct H as ([] & H7 & H). pose proof (proj1 (all_at_least _ _ _) H7) as H7'. clear H7. rename H7' into H7.
    apply Properties_inputs.bind_ok in H; destruct H as ([] & H8 & H). pose proof (proj1 (all_01 _ _) H8) as H8'. clear H8. rename H8' into H8.
    apply Properties_inputs.bind_ok in H; destruct H as ([] & H9 & H). apply sizes_12 in H9. destruct H9 as [L1 L2].
    apply Properties_inputs.bind_ok in H; destruct H as ([wf wi] & Hw & H).
    match type of H with Ok ?x = Ok _ => assert (p = x) by congruence; subst p end. clear H.
    constructor; cbn [w_outer w_10_pc w_10_lampam w_coeff_10 w_cons_10_pc w_bal w_ipo w_coeff_bal_ipo w_coeff_oopo w_membrane w_flexural w_p_A w_n_D1 w_n_D2 w_n_D3 w_group_min w_group_max w_global w_global_p w_local w_local_final w_sens w_tbo w_final w_ini w_finalA w_finalD fst snd]; auto.
    + destruct (rule_10_percent c); [|injection H10 as <- <- <-; auto].
      apply Properties_inputs.bind_ok in H10; destruct H10 as (b1 & B1 & H10). apply Properties_inputs.bind_ok in H10; destruct H10 as (b2 & B2 & H10). apply Properties_inputs.bind_ok in H10; destruct H10 as (q & B3 & H10).
      apply a_bool_ok in B1, B2. apply a_coeff_ok in B3. injection H10 as <- <- <-. auto.
    + destruct (bal c); [apply a_bool_ok; exact Hbal|congruence].
    + destruct (ipo c); [|injection Hipo as <- <-; auto].
      apply Properties_inputs.bind_ok in Hipo; destruct Hipo as (b1 & B1 & Hipo). apply Properties_inputs.bind_ok in Hipo; destruct Hipo as (q & B3 & Hipo).
      apply a_bool_ok in B1. apply a_coeff_ok in B3. injection Hipo as <- <-. auto.
    + destruct (oopo c); [apply a_coeff_ok; exact Hoo|congruence].
    + exists l. split; [exact Hl|]. split; [|auto]. apply (floors l gmin); [apply Hmin|exact H5].
    + exists (standard c). split; [apply standard_ok|exact Hw].
  - intros [].
    rewrite (proj2 (a_limit_ok _ _) s_outer0). cbn [bind].
    assert (E10 : (if rule_10_percent c
           then do b1 <- a_bool (z_10_pc a); do b2 <- a_bool (z_10_lampam a); do q <- a_coeff (z_coeff_10 a); Ok (b1, b2, q)
           else Ok (false, false, 0%Q)) = Ok (w_10_pc p, w_10_lampam p, w_coeff_10 p)).
    { destruct (rule_10_percent c); [|destruct s_ten0 as (-> & -> & ->); reflexivity]. destruct s_ten0 as (A & B & D).
      rewrite (proj2 (a_bool_ok _ _) A), (proj2 (a_bool_ok _ _) B), (proj2 (a_coeff_ok _ _) D). reflexivity. }
    rewrite E10. cbn [bind]. rewrite (proj2 (both_off _ _ (Raised BadDefinition)) s_one_ten0). cbn [bind].
    assert (Eb : (if bal c then a_bool (z_bal a) else Ok false) = Ok (w_bal p)) by (destruct (bal c); [apply a_bool_ok; exact s_bal0|congruence]).
    rewrite Eb. cbn [bind].
    assert (Ei : (if ipo c then do b <- a_bool (z_ipo a); do q <- a_coeff (z_coeff_bal_ipo a); Ok (b, q) else Ok (false, 0%Q)) = Ok (w_ipo p, w_coeff_bal_ipo p)).
    { destruct (ipo c); [|destruct s_ipo0 as (-> & ->); reflexivity]. destruct s_ipo0 as (A & D). rewrite (proj2 (a_bool_ok _ _) A), (proj2 (a_coeff_ok _ _) D). reflexivity. }
    rewrite Ei. cbn [bind]. rewrite (proj2 (both_off _ _ (Raised BadDefinition)) s_one_bal0). cbn [bind].
    assert (Eo : (if oopo c then a_coeff (z_coeff_oopo a) else Ok 0%Q) = Ok (w_coeff_oopo p)) by (destruct (oopo c); [apply a_coeff_ok; exact s_oopo0|congruence]).
    rewrite Eo. cbn [bind].
    rewrite (proj2 (a_bool_ok _ _) s_membrane0), (proj2 (a_bool_ok _ _) s_flexural0). cbn [bind]. destruct s_p_A0 as [PA PB].
    rewrite (proj2 (a_number_ok _ _) PA). cbn [bind]. rewrite (proj2 (within _ (Raised BadDefinition)) PB). cbn [bind].
    rewrite (proj2 (an_int_ok false _ _) s_D4), (proj2 (an_int_ok false _ _) s_D5), (proj2 (an_int_ok false _ _) s_D6). cbn [bind].
    rewrite (proj2 (a_limit_ok _ _) s_min0). cbn [bind]. rewrite (proj2 (lt_guard _ _ (Raised BadDefinition)) s_contig0). cbn [bind].
    destruct s_max0 as (l & S1 & S2 & S3 & S4). rewrite (proj2 (sizes_of_ok _ _ _) S1). cbn [bind].
    rewrite (proj2 (all_at_least _ _ (Raised BadDefinition)) S3), (proj2 (lt_guard _ _ (Raised BadDefinition)) S4). cbn [bind].
    rewrite (proj2 (a_limit_ok _ _) s_global0), (proj2 (a_limit_ok _ _) s_global_p0), (proj2 (a_limit_ok _ _) s_local0), (proj2 (a_limit_ok _ _) s_local_final0). cbn [bind].
    destruct s_sens0 as (L1 & N1 & W1). destruct s_tbo0 as (L2 & N2 & W2).
    rewrite (proj2 (all_at_least _ _ (Raised BadDefinition)) N1), (proj2 (all_01 _ (Raised BadDefinition)) N2), (proj2 (sizes_12 _ _ ValueError) (conj L1 L2)). cbn [bind].
    destruct s_weights0 as (std & Hstd & Hw). assert (std = standard c) as ->.
    { pose proof (standard_ok c) as X. destruct std, (standard c); try reflexivity; [symmetry; apply X, Hstd; reflexivity|apply Hstd, X; reflexivity]. }
    rewrite Hw. cbn [bind fst snd]. rewrite (floors l (w_group_min p) (proj2 s_min0) S3), <- S2, <- W1, <- W2, <- s_finalA0, <- s_finalD0, <- s_cons0. destruct p; reflexivity.
Qed.
Print Assumptions C88_parameters.

(** every outer step has a maximum group size, an integer not smaller than the minimum, which is at
    least the contiguity limit *)
Theorem C88_group_sizes : forall c a p, mk_layla_params c a = Ok p ->
  forall k, 0 <= k < w_outer p -> exists gm, Divers.get (w_group_max p) k = Ok gm /\ 1 <= w_group_min p <= gm /\ Z.of_nat (n_contig c) <= w_group_min p.
Proof.
  intros c a p H k Hk. apply C88_parameters in H. destruct H. destruct s_max0 as (l & _ & E & G & L). destruct s_min0 as [_ M].
  rewrite E. exists (Qfloor (nth (Z.to_nat k) l 0%Q)). unfold zlen in L. assert (K : (Z.to_nat k < length l)%nat) by lia. split; [|split; [split; [exact M|]|exact s_contig0]].
  - replace k with (Z.of_nat (Z.to_nat k)) at 1 by lia. rewrite (DiversProofs.get_ok (map Qfloor l) (Z.to_nat k) 0) by (rewrite map_length; lia). f_equal.
    rewrite (nth_indep _ _ (Qfloor 0)) by (rewrite map_length; lia). apply map_nth.
  - apply Z.le_trans with (Qfloor (inject_Z (w_group_min p))); [rewrite Qfloor_Z; lia|]. apply Qfloor_resp_le. apply G, nth_In. exact K.
Qed.
Print Assumptions C88_group_sizes.

(** the weightings for the repair: those of the in-plane (out-of-plane) part, scaled to sum up to
    one unless they are all negligible; NaN with the weightings *)
Lemma l_normalised_spec l : (forall x, In x l -> (0 <= x)%Q) ->
  ((forall x, In x l -> (x <= 1 # 100000000)%Q) /\ l_normalised l = l) \/
  ((sumQ (l_normalised l) == 1)%Q /\ length (l_normalised l) = length l /\ (0 < sumQ l)%Q /\ forall i, (nth i (l_normalised l) 0 * sumQ l == nth i l 0)%Q).
Proof.
  intros N. unfold l_normalised. destruct (forallb _ l) eqn:E.
  - left. split; [|reflexivity]. intros x Hx. rewrite forallb_forall in E. specialize (E x Hx). apply Qle_bool_iff in E. rewrite Qabs_pos in E by auto. exact E.
  - right. assert (P : (0 < sumQ l)%Q).
    { assert (exists x, In x l /\ Qle_bool (Qabs x) (1 # 100000000) = false) as (x & Hx & B).
      { clear -E. induction l as [|y l IH]; [discriminate|]. cbn [forallb] in E. destruct (Qle_bool (Qabs y) (1 # 100000000)) eqn:F; [|exists y; split; [left; reflexivity|exact F]].
        destruct (IH E) as (x & Hx & B). exists x. split; [right; exact Hx|exact B]. }
      apply sumQ_pos with x; [exact N|exact Hx|]. destruct (Qlt_le_dec 0 x) as [|C]; [assumption|]. exfalso. assert (x == 0)%Q by (apply Qle_antisym; auto).
      rewrite <- not_true_iff_false in B. apply B. apply Qle_bool_iff. rewrite H. discriminate. }
    assert (NZ : ~ (sumQ l == 0)%Q) by (intros X; rewrite X in P; exact (Qlt_irrefl _ P)).
    assert (S1 : forall m s, ~ (s == 0)%Q -> (sumQ (map (fun x => x / s)%Q m) == sumQ m / s)%Q).
    { intros m s Hs. induction m as [|x m IH]; [cbn; field; exact Hs|]. change (sumQ (map (fun x0 => (x0 / s)%Q) (x :: m))) with (x / s + sumQ (map (fun x => (x / s)%Q) m))%Q. change (sumQ (x :: m)) with (x + sumQ m)%Q. rewrite IH. field. exact Hs. }
    split; [rewrite S1 by exact NZ; field; exact NZ|]. split; [apply map_length|]. split; [exact P|]. intros i.
    destruct (Nat.lt_ge_cases i (length l)) as [Hi|Hi].
    + rewrite (nth_indep _ _ (0 / sumQ l)%Q) by (rewrite map_length; exact Hi). rewrite (map_nth (fun x => (x / sumQ l)%Q)). field. exact NZ.
    + rewrite !nth_overflow by (rewrite ?map_length; lia). ring.
Qed.
Definition scaled (part l : list Q) : Prop :=
  ((forall x, In x part -> (x <= 1 # 100000000)%Q) /\ l = part) \/
  ((sumQ l == 1)%Q /\ length l = 4%nat /\ exists k, (0 < k)%Q /\ forall i, (nth i l 0 * k == nth i part 0)%Q).
Theorem C88_weightings : forall c a p, mk_layla_params c a = Ok p ->
  match w_final p with
  | None => w_finalA p = None /\ w_finalD p = None
  | Some w => length w = 12%nat /\ (forall i, 0 <= nth i w 0)%Q /\ (sumQ w == 1)%Q /\
    exists la ld, w_finalA p = Some la /\ w_finalD p = Some ld /\ scaled (firstn 4 w) la /\ scaled (firstn 4 (skipn 8 w)) ld
  end.
Proof.
  intros c a p H. apply C88_parameters in H. destruct H. destruct s_weights0 as (std & _ & Hw). destruct (w_final p) as [w|]; [|auto].
  destruct s_sens0 as (L1 & N1 & _), s_tbo0 as (L2 & N2 & _).
  assert (C1 : (0 <= w_coeff_bal_ipo p)%Q) by (destruct (ipo c); [apply (proj2 s_ipo0)|destruct s_ipo0 as [_ ->]; discriminate]).
  assert (C2 : (0 <= w_coeff_oopo p)%Q) by (destruct (oopo c); [apply s_oopo0|rewrite s_oopo0; discriminate]).
  assert (N2' : forall x, In x (z_tbo a) -> (0 <= x)%Q) by (intros x Hx; destruct (N2 x Hx) as [E|E]; rewrite E; discriminate).
  destruct (C76_weightings_partial _ _ _ _ _ _ _ _ _ w (w_ini p) L1 L2 N1 N2' C1 C2 Hw) as (_ & (A & B & C) & _).
  split; [exact A|]. split; [exact B|]. split; [exact C|]. do 2 eexists. split; [exact s_finalA0|]. split; [exact s_finalD0|].
  assert (P : forall part, (forall x, In x part -> In x w) -> length part = 4%nat -> scaled part (l_normalised part)).
  { intros part Hin Hl. destruct (l_normalised_spec part) as [X|(X1 & X2 & X3 & X4)].
    - intros x Hx. apply Hin in Hx. apply (In_nth _ _ 0%Q) in Hx. destruct Hx as (i & _ & <-). apply B.
    - left. exact X.
    - right. split; [exact X1|]. split; [congruence|]. eauto. }
  split; apply P.
  - intros x Hx. rewrite <- (firstn_skipn 4 w). apply in_or_app. auto.
  - rewrite firstn_length. lia.
  - intros x Hx. rewrite <- (firstn_skipn 8 w). apply in_or_app. right. rewrite <- (firstn_skipn 4 (skipn 8 w)). apply in_or_app. auto.
  - rewrite firstn_length, skipn_length. lia.
Qed.
Print Assumptions C88_weightings.

(** but parameters are accepted whose weightings are not numbers; two switches of a rule that is
    off are refused; the switch left in the constraints can differ from that of the parameters *)
Definition with_sens (l : list Q) : lpargs :=
  {| z_outer := VInt 1; z_coeff_10 := VInt 0; z_coeff_bal_ipo := VInt 1; z_coeff_oopo := VInt 1; z_group_min := VInt 6; z_group_max := Sizes [8%Q];
     z_sens := l; z_tbo := repeat 1%Q 12;
     z_global := VInt 100; z_global_p := VInt 10; z_local := VInt 1000; z_local_final := VInt 1000; z_membrane := VBool true; z_flexural := VBool true;
     z_p_A := VInt 100; z_n_D1 := VInt 6; z_n_D2 := VInt 10; z_n_D3 := VInt 1;
     z_10_lampam := VBool false; z_10_pc := VBool false; z_bal := VBool false; z_ipo := VBool false |}.
Definition with_switches (lampam pc : bool) : lpargs :=
  {| z_outer := VInt 2; z_coeff_10 := VInt 0; z_coeff_bal_ipo := VInt 1; z_coeff_oopo := VInt 1; z_group_min := VInt 6; z_group_max := Size (VInt 8);
     z_sens := repeat 1%Q 12; z_tbo := repeat 1%Q 12;
     z_global := VInt 100; z_global_p := VInt 10; z_local := VInt 1000; z_local_final := VInt 1000; z_membrane := VBool true; z_flexural := VBool true;
     z_p_A := VInt 100; z_n_D1 := VInt 6; z_n_D2 := VInt 10; z_n_D3 := VInt 1;
     z_10_lampam := VBool lampam; z_10_pc := VBool pc; z_bal := VBool false; z_ipo := VBool false |}.
Theorem C88_weightings_refuted : exists c p, mk_layla_cons (two_minima 10 10 5 10) = Ok c /\
  mk_layla_params c (with_sens [0; 0; 0; 0; 1; 1; 1; 1; 0; 0; 0; 0]%Q) = Ok p /\ w_final p = None.
Proof. eexists. eexists. split; [vm_compute; reflexivity|]. split; vm_compute; reflexivity. Qed.
Theorem C88_switches_refuted : exists c, mk_layla_cons default_layla = Ok c /\ rule_10_percent c = false /\
  mk_layla_params c (with_switches true true) = Err (Raised BadDefinition) /\
  exists p, mk_layla_params c (with_switches false true) = Ok p /\ w_10_pc p = false /\ w_cons_10_pc p = VBool true.
Proof. eexists. split; [vm_compute; reflexivity|]. split; [reflexivity|]. split; [vm_compute; reflexivity|]. eexists. split; [vm_compute; reflexivity|split; reflexivity]. Qed.
Print Assumptions C88_weightings_refuted.
Print Assumptions C88_switches_refuted.
Example C88_parameters_example : exists c p, mk_layla_cons default_layla = Ok c /\ mk_layla_params c (with_switches false false) = Ok p /\ w_group_max p = [8; 8] /\ w_final p <> None /\
  exists c' p', mk_layla_cons (two_minima 10 10 5 10) = Ok c' /\ mk_layla_params c' default_lparams = Ok p' /\ w_coeff_bal_ipo p' = 1%Q /\ mk_layla_params c' (with_sens (repeat 1%Q 11)) = Err ValueError.
Proof.
  eexists. eexists. split; [vm_compute; reflexivity|]. split; [vm_compute; reflexivity|]. split; [reflexivity|]. split; [discriminate|]. eexists. eexists. split; [vm_compute; reflexivity|]. split; [vm_compute; reflexivity|]. split; [reflexivity|vm_compute; reflexivity].
Qed.
