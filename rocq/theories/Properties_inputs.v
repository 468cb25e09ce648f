(* Properties_inputs.v - C68: reading and checking ply-drop layouts; C69: parameters of the
   optimiser; C70: positions and angles in the repair. *)
From Verif Require Import Base Constraints Guidelines Inputs.
Local Open Scope Z_scope.

(* ------------------------------------------------------------------ *)
(** ** C68 *)

(** the file holds the layouts [l], on the sheets pdl1, pdl2, ... *)
Definition holds (sheet : nat -> option pdl_table) (l : list pdl_table) : Prop :=
  (forall k t, nth_error l k = Some t -> sheet (S k) = Some t) /\ sheet (S (length l)) = None.

Lemma read_loop_spec sheet l : forall fuel acc, (length l < fuel)%nat ->
  forall i pdl, (forall k t, nth_error l k = Some t -> sheet (i + k)%nat = Some t) -> sheet (i + length l)%nat = None ->
  read_loop fuel sheet i pdl acc =
    match match rev l with t :: _ => Some t | [] => pdl end with Some t => Ok (i + length l + 1, acc ++ l ++ [t])%nat | None => Err Unbound end.
Proof.
  induction l as [|t l IH]; intros fuel acc F i pdl H1 H2.
  - destruct fuel; [cbn in F; lia|]. cbn [read_loop]. rewrite Nat.add_0_r in H2. rewrite H2. cbn. destruct pdl; [|reflexivity]. do 2 f_equal. lia.
  - destruct fuel; [cbn in F; lia|]. cbn [read_loop]. rewrite <- (Nat.add_0_r i). rewrite (H1 0%nat t eq_refl). rewrite Nat.add_0_r.
    rewrite (IH fuel (acc ++ [t])) with (pdl := Some t).
    + cbn [rev]. destruct (rev l) as [|x r] eqn:E; cbn [app].
      * do 2 f_equal; [cbn; lia|]. rewrite <- app_assoc. reflexivity.
      * do 2 f_equal; [cbn; lia|]. rewrite <- app_assoc. reflexivity.
    + cbn in F. lia.
    + intros k u Hk. rewrite <- (H1 (S k) u Hk). f_equal. lia.
    + rewrite <- H2. f_equal. cbn. lia.
Qed.
Lemma read_spec sheet l fuel : holds sheet l -> (length l < fuel)%nat ->
  read_pdls_excel fuel sheet = match rev l with t :: _ => Ok (length l, l ++ [t]) | [] => Err Unbound end.
Proof.
  intros [H1 H2] F. unfold read_pdls_excel. rewrite (read_loop_spec sheet l fuel [] F 1 None) by auto. destruct (rev l); [reflexivity|]. cbn [bind fst snd app]. do 2 f_equal. lia.
Qed.

(** every layout of the file is read, in the order of the sheets, and nothing that is not in the
    file; the number printed is the number of layouts in the file *)
Theorem C68_read_partial : forall sheet l fuel, holds sheet l -> l <> [] -> (length l < fuel)%nat ->
  exists r, read_pdls_excel fuel sheet = Ok (length l, r) /\ firstn (length l) r = l /\ forall t, In t r -> In t l.
Proof.
  intros sheet l fuel H N F. rewrite (read_spec sheet l fuel H F). destruct (rev l) as [|t x] eqn:E.
  - exfalso. apply N. rewrite <- (rev_involutive l), E. reflexivity.
  - exists (l ++ [t]). split; [reflexivity|]. split; [rewrite firstn_app, Nat.sub_diag, firstn_all; cbn; apply app_nil_r|].
    intros u Hu. apply in_app_iff in Hu. destruct Hu as [Hu|[<-|[]]]; [exact Hu|]. apply in_rev. rewrite E. left; reflexivity.
Qed.
(** but the last layout is always returned twice, so that it is searched twice *)
Theorem C68_last_layout_twice_refuted : forall sheet l t fuel, holds sheet (l ++ [t]) -> (length (l ++ [t]) < fuel)%nat ->
  read_pdls_excel fuel sheet = Ok (S (length l), l ++ [t; t]).
Proof.
  intros sheet l t fuel H F. rewrite (read_spec sheet _ fuel H F), rev_app_distr. cbn [rev app]. rewrite app_length, Nat.add_1_r, <- app_assoc. reflexivity.
Qed.
(** and a file without layouts raises UnboundLocalError instead of giving an empty list *)
Theorem C68_no_layout_refuted : forall sheet fuel, holds sheet [] -> (0 < fuel)%nat -> read_pdls_excel fuel sheet = Err Unbound.
Proof. intros sheet fuel H F. apply (read_spec sheet [] fuel H F). Qed.

(** number of plies of a row of a layout: the entries other than -1 *)
Definition plies_in (row : list Z) (n : Z) : Prop := exists l, Permutation row (l ++ repeat (-1) (length row - length l)) /\ ~ In (-1) l /\ zlen l = n.
Lemma filter_plies row n : zlen (filter (fun x => negb (x =? -1)) row) = n <-> plies_in row n.
Proof.
  split.
  - intros <-. exists (filter (fun x => negb (x =? -1)) row). split; [|split; [|reflexivity]].
    + induction row as [|x row IH]; [constructor|]. cbn [filter]. destruct (x =? -1) eqn:E; cbn [negb].
      * apply Z.eqb_eq in E. subst x. set (f := filter _ row) in *. assert (L : (length f <= length row)%nat) by (unfold f; clear; induction row as [|y r]; cbn; [lia|destruct (y =? -1); cbn; lia]).
        cbn [length]. replace (S (length row) - length f)%nat with (S (length row - length f)) by lia. cbn [repeat]. rewrite IH at 1. apply Permutation_middle.
      * cbn [length app Nat.sub]. constructor. exact IH.
    + intros X. apply filter_In in X. destruct X as [_ X]. discriminate.
  - intros (l & P & N & <-). unfold zlen. f_equal.
    assert (E : forall a b, Permutation a b -> length (filter (fun x => negb (x =? -1)) a) = length (filter (fun x => negb (x =? -1)) b)).
    { intros a b Hp. induction Hp; cbn; try lia; [destruct (x =? -1); cbn; lia|destruct (x =? -1), (y =? -1); cbn; lia]. }
    rewrite (E _ _ P), filter_app, app_length. assert (forall m, length (filter (fun x => negb (x =? -1)) (repeat (-1) m)) = 0%nat) as -> by (induction m; cbn; auto).
    rewrite Nat.add_0_r. clear P E. induction l as [|x l IH]; [reflexivity|]. cbn. destruct (x =? -1) eqn:E; [apply Z.eqb_eq in E; exfalso; apply N; left; auto|]. cbn. f_equal. apply IH. intros X; apply N; right; exact X.
Qed.
Lemma check_rows_spec n_plies rows : check_rows n_plies rows = Ok tt <-> exists k, Forall2 plies_in rows k /\ firstn (length rows) n_plies = k.
Proof.
  revert n_plies; induction rows as [|row rows IH]; intros n_plies; cbn [check_rows].
  - split; [intros _; exists []; split; [constructor|reflexivity]|intros _; destruct n_plies; reflexivity].
  - destruct n_plies as [|n n_plies]; [split; [discriminate|intros (k & F & <-); inversion F]|]. unfold guard. destruct (zlen (filter (fun x => negb (x =? -1)) row) =? n) eqn:E; cbn [negb bind].
    + apply Z.eqb_eq, filter_plies in E. rewrite IH. split.
      * intros (k & F & K). exists (n :: k). split; [constructor; auto|cbn; congruence].
      * intros (k & F & K). cbn in K. subst k. inversion F; subst. eexists. split; [eassumption|reflexivity].
    + split; [discriminate|]. intros (k & F & K). cbn in K. subst k. inversion F as [|? ? ? ? Hp]; subst. apply filter_plies in Hp. rewrite Hp, Z.eqb_refl in E. discriminate.
Qed.
(** the check passes exactly if every layout has a row for each panel, with the number of plies of
    the panel *)
Theorem C68_check : forall n_plies pdls, check_pdls_ini n_plies pdls = Ok tt <-> Forall (fun pdl => Forall2 plies_in pdl n_plies) pdls.
Proof.
  intros n_plies pdls. induction pdls as [|pdl pdls IH]; cbn [check_pdls_ini]; [split; [constructor|reflexivity]|].
  assert (C : check_pdl n_plies pdl = Ok tt <-> Forall2 plies_in pdl n_plies).
  { unfold check_pdl, guard. destruct (length pdl =? length n_plies)%nat eqn:E; cbn [negb bind].
    - apply Nat.eqb_eq in E. rewrite check_rows_spec. rewrite E, firstn_all. split; [intros (k & F & <-); exact F|eauto].
    - split; [discriminate|]. intros F. apply Nat.eqb_neq in E. exfalso. apply E. clear -F. induction F; cbn; congruence. }
  destruct (check_pdl n_plies pdl) as [[]|e] eqn:E; cbn [bind].
  - rewrite IH. split; [intros F; constructor; tauto|intros F; inversion F; auto].
  - split; [discriminate|]. intros F. inversion F; subst. apply C in H1. discriminate.
Qed.
(** hence a run from a file starts only if all its layouts fit the panels, and searches them all *)
Theorem C68_from_file_partial : forall sheet l fuel n_plies, holds sheet l -> l <> [] -> (length l < fuel)%nat ->
  (forall p steps, layouts_from_file fuel sheet n_plies = Ok (p, steps) ->
     firstn (length l) p = l /\ steps = length p /\ Forall (fun pdl => Forall2 plies_in pdl n_plies) p) /\
  (Forall (fun pdl => Forall2 plies_in pdl n_plies) l -> is_ok (layouts_from_file fuel sheet n_plies) = true).
Proof.
  intros sheet l fuel n_plies H N F. destruct (C68_read_partial sheet l fuel H N F) as (r & E & P & I). unfold layouts_from_file. rewrite E. cbn [bind snd]. split.
  - intros p steps X. destruct (check_pdls_ini n_plies r) as [[]|] eqn:C; [|discriminate]. cbn in X. injection X as <- <-. split; [exact P|]. split; [reflexivity|]. apply C68_check, C.
  - intros A. assert (C : check_pdls_ini n_plies r = Ok tt). { apply C68_check. rewrite Forall_forall in *. auto. } rewrite C. reflexivity.
Qed.
Definition one_file : nat -> option pdl_table := fun k => match k with 1%nat => Some [[0; 1; 2; 3]; [0; -1; -1; 3]] | 2%nat => Some [[0; 1; 2; 3]; [-1; 1; 2; -1]] | _ => None end.
Example C68_example : holds one_file [[[0; 1; 2; 3]; [0; -1; -1; 3]]; [[0; 1; 2; 3]; [-1; 1; 2; -1]]] /\
  layouts_from_file 9 one_file [4; 2] = Ok ([[[0; 1; 2; 3]; [0; -1; -1; 3]]; [[0; 1; 2; 3]; [-1; 1; 2; -1]]; [[0; 1; 2; 3]; [-1; 1; 2; -1]]], 3%nat) /\
  layouts_from_file 9 one_file [4; 3] = Err (Raised WrongPlyCount).
Proof.
  split; [|split; reflexivity]. split; [|reflexivity]. intros [|[|[|k]]] t H; cbn in H; try discriminate; injection H as <-; reflexivity.
Qed.
Print Assumptions C68_read_partial.
Print Assumptions C68_last_layout_twice_refuted.
Print Assumptions C68_no_layout_refuted.
Print Assumptions C68_check.
Print Assumptions C68_from_file_partial.

(* ------------------------------------------------------------------ *)
(** ** C69 *)

(** the integer z: an int or a bool; the number q: an int, a bool or a float *)
Definition the_int (v : pyval) (z : Z) : Prop := v = VInt z \/ (v = VBool true /\ z = 1) \/ (v = VBool false /\ z = 0).
Definition the_number (v : pyval) (q : Q) : Prop := v = VFloat q \/ exists z, the_int v z /\ q = inject_Z z.
(** v is the integer z, at least 1 *)
Definition limit (v : pyval) (z : Z) : Prop := the_int v z /\ 1 <= z.
(** the arguments are valid and p holds their values *)
Record stored (a : pargs) (p : params) : Prop := {
  st_min : limit (i_group_size_min a) (o_group_size_min p);
  st_max : the_int (i_group_size_max a) (o_group_size_max p);
  st_sizes : o_group_size_min p <= o_group_size_max p;
  st_ini : limit (i_n_ini a) (o_n_ini p);
  st_global : limit (i_global a) (o_global p); st_global_final : limit (i_global_final a) (o_global_final p);
  st_local : limit (i_local a) (o_local p); st_local_final : limit (i_local_final a) (o_local_final p);
  st_global2 : limit (i_global2 a) (o_global2 p); st_local2 : limit (i_local2 a) (o_local2 p);
  st_global3 : limit (i_global3 a) (o_global3 p); st_local3 : limit (i_local3 a) (o_local3 p);
  st_ref : the_number (i_ref a) (o_ref p);
  st_membrane : i_membrane a = VBool (o_membrane p); st_flexural : i_flexural a = VBool (o_flexural p);
  st_p_A : the_number (i_p_A a) (o_p_A p) /\ (0 <= o_p_A p <= 100)%Q;
  st_n_D1 : the_int (i_n_D1 a) (o_n_D1 p); st_n_D2 : the_int (i_n_D2 a) (o_n_D2 p); st_n_D3 : the_int (i_n_D3 a) (o_n_D3 p) }.

Lemma as_int_ok v z : as_int v = Some z <-> the_int v z.
Proof.
  unfold the_int. destruct v as [z'|b|q|]; cbn; try (split; [discriminate|intros [H|[[H _]|[H _]]]; discriminate]).
  - split; [intros [= ->]; auto|intros [[= ->]|[[H _]|[H _]]]; [reflexivity|discriminate..]].
  - destruct b; (split; [intros [= <-]; auto|intros [H|[[H ->]|[H ->]]]; congruence]).
Qed.
Lemma as_number_ok v q : as_number v = Some q <-> the_number v q.
Proof.
  unfold the_number. assert (N : forall o : option Z, option_map inject_Z o = Some q <-> exists z, o = Some z /\ q = inject_Z z).
  { intros [z|]; cbn; split; [intros [= <-]; eauto|intros [z' [[= ->] ->]]; reflexivity|discriminate|intros [z' [H _]]; discriminate]. }
  destruct v as [z'|b|q'|]; cbn [as_number]; try (rewrite N; split; [intros [z [H ->]]; right; exists z; rewrite <- as_int_ok; auto|intros [H|[z [H ->]]]; [discriminate|exists z; rewrite as_int_ok; auto]]).
  split; [intros [= ->]; auto|]. intros [[= ->]|[z [[H|[[H _]|[H _]]] _]]]; [reflexivity|discriminate..].
Qed.
Lemma an_int_ok b v z : an_int b v = Ok z <-> the_int v z.
Proof.
  rewrite <- as_int_ok. unfold an_int. destruct v; cbn; try (split; congruence). destruct b; split; discriminate. Qed.
Lemma a_limit_ok v z : a_limit v = Ok z <-> limit v z.
Proof.
  unfold a_limit, limit. rewrite <- (an_int_ok true). destruct (an_int true v) as [x|e]; cbn [bind]; [|split; [discriminate|intros [? ?]; discriminate]].
  unfold guard. destruct (x <? 1) eqn:E; cbn [bind].
  - apply Z.ltb_lt in E. split; [discriminate|]. intros [X ?]. injection X as <-. lia.
  - apply Z.ltb_ge in E. split; [intros X; injection X as <-; auto|]. intros [X ?]. exact X.
Qed.
Lemma a_bool_ok v b : a_bool v = Ok b <-> v = VBool b.
Proof. unfold a_bool. destruct v; cbn; split; congruence. Qed.
Lemma a_number_ok v q : a_number v = Ok q <-> the_number v q.
Proof. rewrite <- as_number_ok. unfold a_number. destruct (as_number v); split; congruence. Qed.
Lemma bind_ok {A B} (r : result A) (f : A -> result B) b : bind r f = Ok b <-> exists a, r = Ok a /\ f a = Ok b.
Proof. destruct r; cbn; split; [eauto|intros (? & E & H); injection E as <-; exact H|discriminate|intros (? & E & _); discriminate]. Qed.
Lemma guard_ok b e : guard b e = Ok tt <-> b = false.
Proof. unfold guard. destruct b; split; congruence. Qed.

(** an object is created exactly for valid arguments, and it holds the values given *)
Theorem C69_parameters : forall a p, mk_params a = Ok p <-> stored a p.
Proof.
  intros a p. split.
  - intros H. unfold mk_params in H.
    repeat match type of H with bind ?r _ = Ok _ => let x := fresh "x" in let Hx := fresh "Hx" in apply bind_ok in H; destruct H as (x & Hx & H) end. injection H as <-.
    repeat match goal with u : unit |- _ => destruct u end.
    constructor; cbn; try (apply a_limit_ok; assumption); try (eapply an_int_ok; eassumption); try (apply a_bool_ok; assumption); try (apply a_number_ok; assumption).
    + apply guard_ok in Hx1. apply Z.ltb_ge in Hx1. lia.
    + split; [apply a_number_ok; assumption|]. apply guard_ok, negb_false_iff, andb_true_iff in Hx11. destruct Hx11 as [Q1 Q2]. apply Qle_bool_iff in Q1, Q2. auto.
  - intros []. unfold mk_params. rewrite (proj2 (a_limit_ok _ _) st_min0). cbn [bind]. rewrite (proj2 (an_int_ok false _ _) st_max0). cbn [bind].
    assert (o_group_size_max p <? o_group_size_min p = false) as -> by (apply Z.ltb_ge; exact st_sizes0). cbn [guard bind].
    rewrite (proj2 (a_limit_ok _ _) st_ini0), (proj2 (a_limit_ok _ _) st_global0), (proj2 (a_limit_ok _ _) st_global_final0), (proj2 (a_limit_ok _ _) st_local0), (proj2 (a_limit_ok _ _) st_local_final0). cbn [bind].
    rewrite (proj2 (a_number_ok _ _) st_ref0), (proj2 (a_bool_ok _ _) st_membrane0), (proj2 (a_bool_ok _ _) st_flexural0). cbn [bind]. destruct st_p_A0 as [PA [P1 P2]]. rewrite (proj2 (a_number_ok _ _) PA). cbn [bind].
    apply Qle_bool_iff in P1, P2. rewrite P1, P2. cbn [andb negb guard bind].
    rewrite (proj2 (an_int_ok false _ _) st_n_D4), (proj2 (an_int_ok false _ _) st_n_D5), (proj2 (an_int_ok false _ _) st_n_D6). cbn [bind].
    rewrite (proj2 (a_limit_ok _ _) st_global4), (proj2 (a_limit_ok _ _) st_local4), (proj2 (a_limit_ok _ _) st_global5), (proj2 (a_limit_ok _ _) st_local5). cbn [bind]. destruct p; reflexivity.
Qed.
(** the default parameters are valid; 0 groups, an inverted pair of sizes, p_A = 101 and a float
    as a limit are not *)
Example C69_example : is_ok (mk_params default_params) = true /\ (exists p, mk_params default_params = Ok p /\ stored default_params p) /\
  (forall z, ~ the_int (VFloat 3) z) /\ ~ limit (VInt 0) 0.
Proof.
  split; [reflexivity|]. split; [|split; [intros z [H|[[H _]|[H _]]]; discriminate|intros [_ H]; lia]]. destruct (mk_params default_params) as [p|] eqn:E; [|discriminate]. exists p. split; [reflexivity|]. apply C69_parameters, E.
Qed.
Print Assumptions C69_parameters.

(* ------------------------------------------------------------------ *)
(** ** C70 *)

(** distance of ply i of n to the nearer surface, in plies *)
Definition depth (i n : Z) : Z := Z.min i (n - 1 - i).
Lemma position_depth i n : position_of i n = depth i n.
Proof. unfold position_of, depth. destruct (2 * i <? n) eqn:E; [apply Z.ltb_lt in E|apply Z.ltb_ge in E]; lia. Qed.

(** the distance of two plies compares their depths: it is between 0 and 1, zero exactly for a ply
    and itself or its mirror image, symmetric and the same for mirrored plies *)
Theorem C70_two_plies : forall i j n, 0 <= i < n -> 0 <= j < n ->
  exists d, calc_distanciation i n (Some j) = Ok d /\ (d == inject_Z (2 * Z.abs (depth i n - depth j n)) / inject_Z n)%Q /\ (0 <= d)%Q /\ (d < 1)%Q /\
    ((d == 0)%Q <-> i = j \/ i = n - 1 - j) /\
    (exists d', calc_distanciation j n (Some i) = Ok d' /\ (d' == d)%Q) /\
    (exists d', calc_distanciation (n - 1 - i) n (Some j) = Ok d' /\ (d' == d)%Q).
Proof.
  intros i j n Hi Hj. assert (N : (n =? 0) = false) by (apply Z.eqb_neq; lia).
  assert (F : forall i j, exists d, calc_distanciation i n (Some j) = Ok d /\ (d == inject_Z (2 * Z.abs (depth i n - depth j n)) / inject_Z n)%Q).
  { intros a b. unfold calc_distanciation. rewrite N, !position_depth. eexists. split; [reflexivity|].
    assert (E : (inject_Z (depth a n) - inject_Z (depth b n) == inject_Z (depth a n - depth b n))%Q) by (unfold Zminus; rewrite inject_Z_plus, inject_Z_opp; reflexivity).
    rewrite E. change (Qabs (inject_Z (depth a n - depth b n))) with (inject_Z (Z.abs (depth a n - depth b n))). rewrite inject_Z_mult. reflexivity. }
  assert (P : (0 < inject_Z n)%Q) by (change 0%Q with (inject_Z 0); rewrite <- Zlt_Qlt; lia).
  destruct (F i j) as (d & E & V). exists d. split; [exact E|]. split; [exact V|].
  split; [rewrite V; apply Qle_shift_div_l; [exact P|]; rewrite Qmult_0_l; change 0%Q with (inject_Z 0); rewrite <- Zle_Qle; lia|].
  split; [rewrite V; apply Qlt_shift_div_r; [exact P|]; rewrite Qmult_1_l, <- Zlt_Qlt; unfold depth; lia|].
  split.
  { rewrite V. assert (X : (inject_Z (2 * Z.abs (depth i n - depth j n)) / inject_Z n == 0)%Q <-> 2 * Z.abs (depth i n - depth j n) = 0).
    { split; [|intros ->; reflexivity]. intros H. apply inject_Z_injective. apply (Qmult_inj_r _ _ (/ inject_Z n)); [intros Y; apply (Qlt_not_eq _ _ (Qinv_lt_0_compat _ P)); symmetry; exact Y|]. rewrite Qmult_0_l. exact H. }
    rewrite X. unfold depth. lia. }
  split; [destruct (F j i) as (d' & E' & V')|destruct (F (n - 1 - i) j) as (d' & E' & V')]; exists d'; (split; [exact E'|]); rewrite V', V.
  - replace (depth j n - depth i n) with (- (depth i n - depth j n)) by lia. rewrite Z.abs_opp. reflexivity.
  - replace (depth (n - 1 - i) n) with (depth i n) by (unfold depth; lia). reflexivity.
Qed.
(** with one ply: the distance from the middle surface to the outer face of the ply, 1 being the
    half thickness *)
Theorem C70_one_ply : forall i n, 0 <= i < n ->
  exists d, calc_distanciation i n None = Ok d /\ (d == (inject_Z n - 2 * inject_Z (depth i n)) / inject_Z n)%Q /\ (0 < d <= 1)%Q /\
    (i + 1 <= n - i -> (d == 1 - 2 * inject_Z i / inject_Z n)%Q) /\ (n - i <= i + 1 -> (d == 2 * inject_Z (i + 1) / inject_Z n - 1)%Q).
Proof.
  intros i n Hi. assert (N : (n =? 0) = false) by (apply Z.eqb_neq; lia). assert (P : (0 < inject_Z n)%Q) by (change 0%Q with (inject_Z 0); rewrite <- Zlt_Qlt; lia).
  unfold calc_distanciation. rewrite N, position_depth. eexists. split; [reflexivity|].
  assert (V : (2 * Qabs (inject_Z (depth i n) - inject_Z n / 2) / inject_Z n == (inject_Z n - 2 * inject_Z (depth i n)) / inject_Z n)%Q).
  { assert (L : (2 * inject_Z (depth i n) < inject_Z n)%Q). { change 2%Q with (inject_Z 2). rewrite <- inject_Z_mult, <- Zlt_Qlt. unfold depth. lia. }
    rewrite Qabs_neg. 2: { apply (Qplus_le_l _ _ (inject_Z n / 2)). setoid_replace (inject_Z (depth i n) - inject_Z n / 2 + inject_Z n / 2)%Q with (inject_Z (depth i n)) by ring. rewrite Qplus_0_l.
      apply Qle_shift_div_l; [reflexivity|]. rewrite Qmult_comm. apply Qlt_le_weak, L. }
    apply Qmult_comp; [|reflexivity]. field. }
  split; [exact V|]. rewrite V. split.
  { assert (W : (inject_Z n - 2 * inject_Z (depth i n) == inject_Z (n - 2 * depth i n))%Q) by (unfold Zminus; rewrite inject_Z_plus, inject_Z_opp, inject_Z_mult; ring).
    rewrite W. split; [apply Qlt_shift_div_l; [exact P|]; rewrite Qmult_0_l; change 0%Q with (inject_Z 0); rewrite <- Zlt_Qlt|apply Qle_shift_div_r; [exact P|]; rewrite Qmult_1_l, <- Zle_Qle]; unfold depth; lia. }
  assert (NZ : ~ (inject_Z n == 0)%Q) by (intros X; apply (Qlt_not_eq _ _ P); symmetry; exact X).
  split; intros H.
  - replace (depth i n) with i by (unfold depth; lia). field. exact NZ.
  - replace (depth i n) with (n - (i + 1)) by (unfold depth; lia). unfold Zminus. rewrite inject_Z_plus, inject_Z_opp. field. exact NZ.
Qed.
(** signed angle from a to b: congruent to b - a modulo 180, in ]-90, 90], its size is the
    disorientation *)
Theorem C70_signed_angle : forall a b, -90 <= a <= 90 -> -90 <= b <= 90 ->
  (exists k, calc_delta_angle_2 a b = b - a + 180 * k) /\ -90 < calc_delta_angle_2 a b <= 90 /\ Z.abs (calc_delta_angle_2 a b) = calc_delta_angle a b.
Proof.
  intros a b Ha Hb. unfold calc_delta_angle_2, calc_delta_angle.
  assert (K : exists k, (let x := b - a in let y := 180 + b - a in let z := b - 180 - a in let m := if Z.abs y <? Z.abs x then y else x in let m := if Z.abs z <? Z.abs m then z else m in if m =? -90 then 90 else m) = b - a + 180 * k).
  { cbn zeta. destruct (Z.abs (180 + b - a) <? Z.abs (b - a)) eqn:E1; [destruct (Z.abs (b - 180 - a) <? Z.abs (180 + b - a)) eqn:E2|destruct (Z.abs (b - 180 - a) <? Z.abs (b - a)) eqn:E2];
    match goal with |- context [if ?m =? -90 then _ else _] => destruct (Z.eqb_spec m (-90)) end;
    first [exists 0; lia|exists 1; lia|exists (-1); lia|exists 2; lia]. }
  split; [exact K|]. clear K. cbn zeta. destruct (Z.abs (180 + b - a) <? Z.abs (b - a)) eqn:E1; [destruct (Z.abs (b - 180 - a) <? Z.abs (180 + b - a)) eqn:E2|destruct (Z.abs (b - 180 - a) <? Z.abs (b - a)) eqn:E2];
    try apply Z.ltb_lt in E1; try apply Z.ltb_ge in E1; try apply Z.ltb_lt in E2; try apply Z.ltb_ge in E2;
    match goal with |- context [if ?m =? -90 then _ else _] => destruct (Z.eqb_spec m (-90)) end; split; lia.
Qed.
(** the value that ranks the plies to change *)
Theorem C70_objective_value : forall da i j n st cb cd cp, 0 < n ->
  exists x, objective_repair da i j n st cb cd cp = Ok x /\
    (x == cd * (inject_Z da / 180) + cp * (2 * inject_Z (Z.abs (depth i n - depth j n)) / inject_Z n) - cb * st)%Q.
Proof.
  intros da i j n st cb cd cp N. unfold objective_repair, calc_distanciation.
  assert (N0 : (n =? 0) = false) by (apply Z.eqb_neq; lia). rewrite N0, !position_depth. cbn [bind]. eexists. split; [reflexivity|].
  assert (Pn : ~ (inject_Z n == 0)%Q) by (change 0%Q with (inject_Z 0); rewrite inject_Z_injective; lia).
  assert (E : (inject_Z (depth i n) - inject_Z (depth j n) == inject_Z (depth i n - depth j n))%Q) by (unfold Zminus; rewrite inject_Z_plus, inject_Z_opp; reflexivity).
  rewrite E. change (Qabs (inject_Z (depth i n - depth j n))) with (inject_Z (Z.abs (depth i n - depth j n))). field. exact Pn.
Qed.
Print Assumptions C70_objective_value.
(** the value that ranks the plies to change: with non-negative coefficients it grows with the angle
    and with the distance of the plies, and a better balance status lowers it *)
Theorem C70_ranking : forall da i j n st cb cd cp da' i' j' st' x x', (0 <= cb -> 0 <= cd -> 0 <= cp ->
  objective_repair da i j n st cb cd cp = Ok x -> objective_repair da' i' j' n st' cb cd cp = Ok x' -> (da <= da')%Z -> st' <= st ->
  (Z.abs (depth i n - depth j n) <= Z.abs (depth i' n - depth j' n))%Z -> (0 < n)%Z -> x <= x')%Q.
Proof.
  intros da i j n st cb cd cp da' i' j' st' x x' B D P E E' A S' H N. unfold objective_repair, calc_distanciation in *.
  assert (N0 : (n =? 0) = false) by (apply Z.eqb_neq; lia). rewrite N0, !position_depth in *. cbn [bind] in *. injection E as <-. injection E' as <-.
  assert (Pn : (0 < inject_Z n)%Q) by (change 0%Q with (inject_Z 0); rewrite <- Zlt_Qlt; lia).
  assert (X : forall a b, (inject_Z (depth a n) - inject_Z (depth b n) == inject_Z (depth a n - depth b n))%Q) by (intros; unfold Zminus; rewrite inject_Z_plus, inject_Z_opp; reflexivity).
  apply Qplus_le_compat; [apply Qplus_le_compat|].
  - setoid_replace (- cb * st)%Q with (- (cb * st))%Q by ring. setoid_replace (- cb * st')%Q with (- (cb * st'))%Q by ring. apply Qopp_le_compat. rewrite (Qmult_comm cb), (Qmult_comm cb st). apply Qmult_le_compat_r; assumption.
  - unfold Qdiv. apply Qmult_le_compat_r; [|discriminate]. rewrite (Qmult_comm cd), (Qmult_comm cd (inject_Z da')). apply Qmult_le_compat_r; [rewrite <- Zle_Qle; exact A|exact D].
  - rewrite (Qmult_comm cp), (Qmult_comm cp (2 * _ / _)%Q). apply Qmult_le_compat_r; [|exact P]. unfold Qdiv. apply Qmult_le_compat_r; [|apply Qlt_le_weak, Qinv_lt_0_compat, Pn].
    replace (depth i n * 1 + - depth j n * 1) with (depth i n - depth j n) by lia. replace (depth i' n * 1 + - depth j' n * 1) with (depth i' n - depth j' n) by lia. apply Qmult_le_l; [reflexivity|]. unfold Qle. cbn [Qnum Qden]. lia.
Qed.
Example C70_example : (exists d, calc_distanciation 2 40 None = Ok d /\ (d == 9 # 10)%Q) /\ (exists d, calc_distanciation 2 40 (Some 30) = Ok d /\ (d == 7 # 20)%Q) /\
  calc_delta_angle_2 (-75) 75 = -30 /\ calc_delta_angle_2 45 (-45) = 90.
Proof. split; [eexists; split; reflexivity|]. split; [eexists; split; reflexivity|]. split; reflexivity. Qed.
Print Assumptions C70_two_plies.
Print Assumptions C70_one_ply.
Print Assumptions C70_signed_angle.
Print Assumptions C70_ranking.
