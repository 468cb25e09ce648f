(* BeamProofs.v - the tables of the beam search stay in step with the angle sequences that
   created their nodes. *)
From Coq Require Import Lqa.
From Verif Require Import Base Constraints Guidelines Pruning Moments Search SearchProofs Properties_search Beam.
Local Open Scope Z_scope.

Section BEAM.
Variable pb : problem.
Variable end_level : nat.
Notation c := (p_cons pb).
Notation rms := (List.combine (p_pdl pb) (p_mat pb)).

(** what a node holds after the angles [h] were chosen at the levels [ls] *)
Definition panel_node (ls : list nat) (h : list Z) (rm : list Z * list (Z -> lampam)) : node :=
  search (sym c) (fst rm) (snd rm) node0 ls h.
Fixpoint counts_of (row : list Z) (ls : list nat) (h : list Z) (ct : list Q) : list Q :=
  match ls, h with
  | l :: ls', a :: h' =>
    counts_of row ls' h' (grow_counts (set_of_angles c) (Nat.eqb l end_level && p_middle pb) l row a ct)
  | _, _ => ct
  end.
Definition counts0 : list Q := repeat 0%Q (length (set_of_angles c)).
Definition ss_of (ls : list nat) (h : list Z) : stacks :=
  map (fun rm => (nd_bot (panel_node ls h rm), nd_top (panel_node ls h rm))) rms.
Definition num_of (ls : list nat) (h : list Z) : numbers :=
  map (fun rm => (nd_lampam (panel_node ls h rm), counts_of (fst rm) ls h counts0)) rms.
Definition score_of (ls : list nat) (l : nat) (h : list Z) : Q := p_score pb l (map fst (num_of ls h)).

(** the stacks of the guide panel *)
Definition guide (ls : list nat) (h : list Z) : list Z * list Z := nth (p_thick pb) (ss_of ls h) ([], []).

(** [h] can be chosen at the levels [ls]: every angle was left by the pruning *)
Inductive reach : list nat -> list Z -> Prop :=
| reach_nil : reach [] []
| reach_snoc ls h l a angs : reach ls h ->
    pruning c (p_n pb) l (p_middle pb) (fst (guide ls h)) (snd (guide ls h)) (set_of_angles c) = Ok (Some angs) ->
    In a angs -> ind_angle (set_of_angles c) a <> None ->
    reach (ls ++ [l]) (h ++ [a]).

Lemma reach_length ls h : reach ls h -> length h = length ls.
Proof. induction 1; rewrite ?app_length; cbn; lia. Qed.

Lemma search_snoc s row m : forall ls h nd l a, length h = length ls ->
  search s row m nd (ls ++ [l]) (h ++ [a]) = branch s row m (search s row m nd ls h) l a.
Proof. induction ls as [|x ls IH]; intros [|y h] nd l a H; cbn in *; try lia; auto. Qed.
Lemma counts_snoc row : forall ls h ct l a, length h = length ls ->
  counts_of row (ls ++ [l]) (h ++ [a]) ct =
  grow_counts (set_of_angles c) (Nat.eqb l end_level && p_middle pb) l row a (counts_of row ls h ct).
Proof. induction ls as [|x ls IH]; intros [|y h] ct l a H; cbn in *; try lia; auto. Qed.

Lemma combine_map_r {A B D E} (f : A * B -> D) (g : A * D -> E) : forall (x : list A) (y : list B), length x = length y ->
  map g (List.combine x (map f (List.combine x y))) = map (fun p => g (fst p, f p)) (List.combine x y).
Proof. induction x as [|a x IH]; intros [|b y] H; cbn in *; try lia; auto. f_equal; apply IH; lia. Qed.
Lemma combine_map_self {A D E} (f : A -> D) (g : A * D -> E) : forall (x : list A),
  map g (List.combine x (map f x)) = map (fun p => g (p, f p)) x.
Proof. induction x as [|a x IH]; cbn; auto. f_equal; auto. Qed.

Hypothesis Hlen : length (p_pdl pb) = length (p_mat pb).

Lemma child_stacks_of ls h l a : length h = length ls -> child_stacks pb l (ss_of ls h) a = ss_of (ls ++ [l]) (h ++ [a]).
Proof.
  intros L; unfold child_stacks, ss_of. rewrite combine_map_r by exact Hlen. apply map_ext; intros [row m].
  unfold panel_node; cbn [fst snd]. rewrite search_snoc by exact L. unfold branch, grow_stack; cbn [nd_bot nd_top].
  destruct (0 <=? nth l row (-1)); cbn [andb]; [|reflexivity].
  destruct (sym c || Nat.even l)%bool; cbn [fst snd negb andb]; reflexivity.
Qed.
Lemma child_numbers_of ls h l a : length h = length ls ->
  child_numbers pb (Nat.eqb l end_level && p_middle pb) l (num_of ls h) a = num_of (ls ++ [l]) (h ++ [a]).
Proof.
  intros L; unfold child_numbers, num_of. rewrite combine_map_self. apply map_ext; intros [row m].
  unfold panel_node; cbn [fst snd]. rewrite search_snoc, counts_snoc by exact L. reflexivity.
Qed.

(** tables in which the nodes [olds] are still to be expanded at level [l] and [news] are
    their elder siblings' children *)
Definition mixed (ls : list nat) (l : nat) (olds news : list (list Z)) (t : btables) : Prop :=
  t_ss t = map (ss_of ls) olds ++ map (ss_of (ls ++ [l])) news /\
  t_num t = map (num_of ls) olds ++ map (num_of (ls ++ [l])) news /\
  exists oo, length oo = length olds /\ (forall x, In x oo -> (-6666 < x)%Q) /\
    t_obj t = oo ++ map (score_of (ls ++ [l]) l) news.

Variable planned : list nat.
Hypothesis score_low : forall ls l rest h, planned = ls ++ l :: rest -> reach (ls ++ [l]) h -> (-6666 < score_of (ls ++ [l]) l h)%Q.
Hypothesis score_high : forall ls l rest h, planned = ls ++ l :: rest -> reach (ls ++ [l]) h -> (score_of (ls ++ [l]) l h < 6666)%Q.

Lemma kept_app {A} fs (l m : list A) : (length l <= length fs)%nat ->
  (forall i, (i < length l)%nat -> nth i fs false = true) ->
  kept_entries fs (l ++ m) = l ++ kept_entries (skipn (length l) fs) m.
Proof.
  revert fs; induction l as [|x l IH]; intros fs L H; [reflexivity|].
  destruct fs as [|b fs]; [cbn in L; lia|].
  pose proof (H 0%nat ltac:(cbn; lia)) as H0; cbn in H0; subst b.
  unfold kept_entries; cbn [app length skipn List.combine filter fst map snd]. f_equal.
  apply IH; [cbn in L; lia|]. intros i Hi; exact (H (S i) ltac:(cbn; lia)).
Qed.
Lemma kept_map {A B} (f : A -> B) fs : forall l, kept_entries fs (map f l) = map f (kept_entries fs l).
Proof.
  unfold kept_entries; induction fs as [|b fs IH]; intros [|x l]; cbn; auto. destruct b; cbn; [f_equal|]; apply IH.
Qed.
Lemma kept_In {A} fs (l : list A) x : In x (kept_entries fs l) -> In x l.
Proof.
  unfold kept_entries; intros H; apply in_map_iff in H; destruct H as [[b y] [<- H]].
  apply filter_In in H; destruct H as [H _]; apply in_combine_r in H; exact H.
Qed.

Lemma expand_mixed ls l rest h olds news t t' : planned = ls ++ l :: rest -> reach ls h -> (forall h', In h' news -> reach (ls ++ [l]) h') ->
  mixed ls l (h :: olds) news t -> expand pb (Nat.eqb l end_level) l t = Ok t' ->
  exists more, mixed ls l olds (news ++ more) t' /\
    (forall h', In h' more -> reach (ls ++ [l]) h').
Proof.
  intros Pl R Rn [E1 [E2 [oo [Lo [Bo E3]]]]] X. pose proof (reach_length _ _ R) as L. destruct oo as [|o oo]; [discriminate|].
  unfold expand in X. cbn [map app] in E1, E2, E3. rewrite E1, E2, E3 in X.
  fold (guide ls h) in X.
  destruct (pruning c (p_n pb) l (p_middle pb) (fst (guide ls h)) (snd (guide ls h)) (set_of_angles c)) as [[angs|]|e] eqn:P; cbn [bind] in X; [| |discriminate].
  2:{ injection X as <-; exists []; rewrite app_nil_r; split; [|intros h' []].
      split; [reflexivity|]; split; [reflexivity|]; exists oo; split; [cbn in Lo; lia|]; split; [intros x Hx; apply Bo; now right|reflexivity]. }
  unfold guard in X.
  destruct (existsb _ angs) eqn:K; cbn [bind] in X; [discriminate|].
  rewrite map_map in X.
  rewrite (map_ext _ (fun a => ss_of (ls ++ [l]) (h ++ [a]))) in X by (intros a; apply child_stacks_of; exact L).
  rewrite (map_ext (child_numbers _ _ _ _) (fun a => num_of (ls ++ [l]) (h ++ [a]))) in X by (intros a; apply child_numbers_of; exact L).
  rewrite (map_ext _ (fun a => score_of (ls ++ [l]) l (h ++ [a]))) in X
    by (intros a; unfold score_of; rewrite child_numbers_of by exact L; reflexivity).
  set (children := map (fun a => h ++ [a]) angs).
  assert (Hch : forall h', In h' children -> reach (ls ++ [l]) h').
  { intros h' Hin; unfold children in Hin; apply in_map_iff in Hin; destruct Hin as [a [<- Ha]].
    eapply reach_snoc; eauto. intros N.
    assert (existsb (fun a => match ind_angle (set_of_angles c) a with Some _ => false | None => true end) angs = true) as T.
    { apply existsb_exists; exists a; split; [exact Ha|rewrite N; reflexivity]. }
    congruence. }
  replace (map (fun a => ss_of (ls ++ [l]) (h ++ [a])) angs) with (map (ss_of (ls ++ [l])) children) in X by (unfold children; rewrite map_map; reflexivity).
  replace (map (fun a => num_of (ls ++ [l]) (h ++ [a])) angs) with (map (num_of (ls ++ [l])) children) in X by (unfold children; rewrite map_map; reflexivity).
  replace (map (fun a => score_of (ls ++ [l]) l (h ++ [a])) angs) with (map (score_of (ls ++ [l]) l) children) in X by (unfold children; rewrite map_map; reflexivity).
  assert (Lc : length angs = length children) by (unfold children; rewrite map_length; reflexivity).
  rewrite Lc in X. clearbody children. clear P K Lc E1 E2 E3 angs t. cbn in Lo; injection Lo as Lo.
  destruct (Nat.eqb (S l) (p_n pb)).
  - cbn [local_pruning negb andb] in X. unfold local_pruning in X; cbn [negb andb] in X. injection X as <-.
    exists children; split; [|exact Hch]. split; [|split].
    + cbn [t_ss]. rewrite map_app, app_assoc; reflexivity.
    + cbn [t_num]. rewrite map_app, app_assoc; reflexivity.
    + exists oo; split; [exact Lo|]; split; [intros x Hx; apply Bo; now right|]. cbn [t_obj]. rewrite map_app, app_assoc; reflexivity.
  - match type of X with local_pruning _ _ ?lim ?tt = _ =>
      destruct (C32_local_pruning _ _ tt (length children) lim) as [t1 [fs [E [Lf [F1 [F2 [F3 [F4 _]]]]]]]] end.
    + cbn [t_ss t_obj]. rewrite !app_length, !map_length; lia.
    + cbn [t_num t_obj]. rewrite !app_length, !map_length; lia.
    + cbn [t_obj]. rewrite !app_length, !map_length; lia.
    + cbn [t_obj]. intros x Hx. rewrite !in_app_iff in Hx. destruct Hx as [[Hx|Hx]|Hx].
      * apply Bo; now right.
      * apply in_map_iff in Hx; destruct Hx as [y [<- Hy]]; apply (score_low _ _ rest); auto.
      * apply in_map_iff in Hx; destruct Hx as [y [<- Hy]]; apply (score_low _ _ rest); auto.
    + rewrite E in X; injection X as <-. cbn [t_ss t_num t_obj] in F1, F2, F3, F4, Lf. clear E.
      rewrite !app_length, !map_length in Lf, F4.
      replace (length oo + length news + length children - length children)%nat with (length oo + length news)%nat in F4 by lia.
      set (k := (length oo + length news)%nat) in *.
      exists (kept_entries (skipn k fs) children). split.
      2:{ intros h' Hin; apply Hch; apply kept_In in Hin; exact Hin. }
      split; [|split].
      * rewrite F1, kept_app; rewrite ?app_length, ?map_length, <- ?Lo; fold k; [|lia|exact F4].
        rewrite kept_map, map_app, app_assoc; reflexivity.
      * rewrite F2, kept_app; rewrite ?app_length, ?map_length, <- ?Lo; fold k; [|lia|exact F4].
        rewrite kept_map, map_app, app_assoc; reflexivity.
      * exists oo; split; [exact Lo|]; split; [intros x Hx; apply Bo; now right|].
        rewrite F3, kept_app; rewrite ?app_length, ?map_length; fold k; [|lia|exact F4].
        rewrite kept_map, map_app, app_assoc; reflexivity.
Qed.

Lemma expand_nodes_mixed ls l rest : planned = ls ++ l :: rest -> forall olds news t t',
  (forall h, In h olds -> reach ls h) -> (forall h, In h news -> reach (ls ++ [l]) h) ->
  mixed ls l olds news t -> expand_nodes pb (Nat.eqb l end_level) l (length olds) t = Ok t' ->
  exists news', mixed ls l [] news' t' /\ (forall h, In h news' -> reach (ls ++ [l]) h).
Proof.
  intros Pl. induction olds as [|h olds IH]; intros news t t' R1 R2 M X; cbn [length expand_nodes] in X.
  - injection X as <-; exists news; auto.
  - destruct (expand pb (Nat.eqb l end_level) l t) as [t1|e] eqn:E; cbn [bind] in X; [|discriminate].
    destruct (expand_mixed ls l rest h olds news t t1 Pl (R1 h (or_introl eq_refl)) R2 M E) as [more [M1 R3]].
    apply (IH (news ++ more) t1 t'); auto.
    + intros h' Hin; apply R1; now right.
    + intros h' Hin; apply in_app_or in Hin; destruct Hin as [Hin|Hin]; [auto|]. apply R3; auto.
Qed.

(** tables in step with the sequences [hs] *)
Definition in_step (ls : list nat) (obj : list Z -> Q) (hs : list (list Z)) (t : btables) : Prop :=
  t_ss t = map (ss_of ls) hs /\ t_num t = map (num_of ls) hs /\ t_obj t = map obj hs.

Lemma level_step_ok ls l rest obj hs t t' : planned = ls ++ l :: rest ->
  (forall h, In h hs -> reach ls h) -> (forall h, In h hs -> (-6666 < obj h)%Q) -> in_step ls obj hs t ->
  level_step pb (Nat.eqb l end_level) l t = Ok t' ->
  exists hs', in_step (ls ++ [l]) (score_of (ls ++ [l]) l) hs' t' /\
    (forall h, In h hs' -> reach (ls ++ [l]) h) /\
    (length hs' <= (if Nat.eqb l end_level then p_global_final pb else p_global pb))%nat /\
    (1 <= (if Nat.eqb l end_level then p_global_final pb else p_global pb) -> hs' <> [])%nat.
Proof.
  intros Pl R B [E1 [E2 E3]] X; unfold level_step in X.
  destruct (expand_nodes pb (Nat.eqb l end_level) l (length (t_obj t)) t) as [t1|e] eqn:E; cbn [bind] in X; [|discriminate].
  rewrite E3, map_length in E.
  destruct (expand_nodes_mixed ls l rest Pl hs [] t t1 R) as [news [[M1 [M2 [oo [Lo [_ M3]]]]] R1]]; auto.
  { intros h []. }
  { split; [rewrite app_nil_r; exact E1|]; split; [rewrite app_nil_r; exact E2|].
    exists (map obj hs); split; [apply map_length|]; split; [|rewrite app_nil_r; exact E3].
    intros x Hx; apply in_map_iff in Hx; destruct Hx as [h [<- Hh]]; auto. }
  destruct oo; [|discriminate]. cbn [map app] in M1, M2, M3.
  set (lim := if Nat.eqb l end_level then p_global_final pb else p_global pb) in *.
  destruct (C32_global_pruning _ _ t1 lim) as [G0 G1].
  - rewrite M1, M3, !map_length; reflexivity.
  - rewrite M2, M3, !map_length; reflexivity.
  - intros x Hx; rewrite M3 in Hx; apply in_map_iff in Hx; destruct Hx as [y [<- Hy]]; apply (score_high _ _ rest); auto.
  - destruct (Nat.eq_dec (length (t_obj t1)) 0) as [Z|Z].
    { destruct (G0 Z) as [e Ge]; congruence. }
    destruct (G1 Z) as [t2 [fs [Eg [Lf [F1 [F2 [F3 [F4 _]]]]]]]]. rewrite Eg in X; injection X as <-.
    exists (kept_entries fs news). rewrite M1, kept_map in F1. rewrite M2, kept_map in F2. rewrite M3, kept_map in F3.
    split; [split; [exact F1|split; [exact F2|exact F3]]|].
    split; [intros h Hh; apply R1; apply kept_In in Hh; exact Hh|].
    rewrite F3, map_length in F4. rewrite F4. split; [lia|].
    intros Hl N. rewrite N in F4; cbn in F4. lia.
Qed.
End BEAM.

Lemma beam_from_ok pb e planned (Hlen : length (p_pdl pb) = length (p_mat pb))
  (low : forall ls l rest h, planned = ls ++ l :: rest -> reach pb (ls ++ [l]) h -> (-6666 < score_of pb e (ls ++ [l]) l h)%Q)
  (high : forall ls l rest h, planned = ls ++ l :: rest -> reach pb (ls ++ [l]) h -> (score_of pb e (ls ++ [l]) l h < 6666)%Q) :
  forall levels ls obj hs t t', planned = ls ++ levels ->
  (forall h, In h hs -> reach pb ls h) -> (forall h, In h hs -> (-6666 < obj h)%Q) -> in_step pb e ls obj hs t ->
  beam_from pb e levels t = Ok t' -> levels <> [] ->
  exists hs', in_step pb e (ls ++ levels) (score_of pb e (ls ++ levels) (last levels 0%nat)) hs' t' /\
    (forall h, In h hs' -> reach pb (ls ++ levels) h) /\
    (length hs' <= (if Nat.eqb (last levels 0%nat) e then p_global_final pb else p_global pb))%nat /\
    (1 <= (if Nat.eqb (last levels 0%nat) e then p_global_final pb else p_global pb) -> hs' <> [])%nat.
Proof.
  induction levels as [|l levels IH]; intros ls obj hs t t' Pl R B I X N; [congruence|].
  cbn [beam_from] in X. destruct (level_step pb (Nat.eqb l e) l t) as [t1|er] eqn:E; cbn [bind] in X; [|discriminate].
  destruct (level_step_ok pb e Hlen planned low high ls l levels obj hs t t1 Pl R B I E) as [hs1 [I1 [R1 [C1 C2]]]].
  destruct levels as [|l2 levels].
  - cbn [beam_from] in X; injection X as <-. exists hs1. cbn [last]. auto.
  - destruct (IH (ls ++ [l]) (score_of pb e (ls ++ [l]) l) hs1 t1 t') as [hs' H]; auto; [rewrite <- app_assoc; exact Pl|intros h Hh; apply (low _ _ (l2 :: levels)); auto|discriminate|].
    exists hs'. rewrite <- app_assoc in H. cbn [app] in H. exact H.
Qed.

Lemma beam_reach_ok pb levels t' (Hlen : length (p_pdl pb) = length (p_mat pb))
  (low : forall ls l rest h, levels = ls ++ l :: rest -> reach pb (ls ++ [l]) h -> (-6666 < score_of pb (last levels 0%nat) (ls ++ [l]) l h)%Q)
  (high : forall ls l rest h, levels = ls ++ l :: rest -> reach pb (ls ++ [l]) h -> (score_of pb (last levels 0%nat) (ls ++ [l]) l h < 6666)%Q) :
  beam pb levels = Ok t' -> levels <> [] ->
  exists hs, in_step pb (last levels 0%nat) levels (score_of pb (last levels 0%nat) levels (last levels 0%nat)) hs t' /\
    (forall h, In h hs -> reach pb levels h) /\
    (length hs <= p_global_final pb)%nat /\ (1 <= p_global_final pb -> hs <> [])%nat.
Proof.
  intros X N; unfold beam in X.
  destruct (beam_from_ok pb (last levels 0%nat) levels Hlen low high levels [] (fun _ => 0%Q) [[]] (start pb) t') as [hs H]; auto.
  - intros h [<-|[]]; constructor.
  - intros h _; reflexivity.
  - split; [|split; [|reflexivity]].
    + unfold start, ss_of; cbn [t_ss map]; f_equal. unfold panel_node; cbn [search nd_bot nd_top node0].
      revert Hlen; generalize (p_mat pb); induction (p_pdl pb) as [|r p IH]; intros [|m q] L; cbn in *; try lia; auto. f_equal; apply IH; lia.
    + unfold start, num_of; cbn [t_num map]; f_equal. unfold panel_node; cbn [search nd_lampam node0 counts_of].
      revert Hlen; generalize (p_mat pb); induction (p_pdl pb) as [|r p IH]; intros [|m q] L; cbn in *; try lia; auto. f_equal; apply IH; lia.
  - rewrite Nat.eqb_refl in H; exists hs; exact H.
Qed.

Lemma beam_ok pb levels t' (Hlen : length (p_pdl pb) = length (p_mat pb))
  (low : forall l x, (-6666 < p_score pb l x)%Q) (high : forall l x, (p_score pb l x < 6666)%Q) :
  beam pb levels = Ok t' -> levels <> [] ->
  exists hs, in_step pb (last levels 0%nat) levels (score_of pb (last levels 0%nat) levels (last levels 0%nat)) hs t' /\
    (forall h, In h hs -> reach pb levels h) /\
    (length hs <= p_global_final pb)%nat /\ (1 <= p_global_final pb -> hs <> [])%nat.
Proof. apply beam_reach_ok; [exact Hlen|intros; apply low|intros; apply high]. Qed.
