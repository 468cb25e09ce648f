(* Properties_searchreturns.v - C99: the beam search answers. *)
From Coq Require Import Lqa.
From Verif Require Properties_swap.
From Verif Require Import Base Uniq Constraints Guidelines GuidelinesProofs ConstraintsProofs PdlTools GroupFilters Pruning PruningProofs Format FormatProofs Moments MomentsProofs Search SearchProofs Properties_search Beam BeamProofs Properties_beam.
Local Open Scope Z_scope.

(* ---------------- the pruning of the angles ---------------- *)
Lemma filterR_total {A} (f : A -> result bool) l : (forall x, In x l -> exists b, f x = Ok b) -> exists r, filterR f l = Ok r /\ incl r l.
Proof.
  induction l as [|x l IH]; intros H; [exists []; split; [reflexivity|intros y []]|]. cbn [filterR]. destruct (H x (or_introl eq_refl)) as [q ->]. cbn [bind].
  destruct IH as [r [-> I]]; [intros y Hy; apply H; right; exact Hy|]. cbn [bind]. destruct q; eexists; (split; [reflexivity|]); intros y Hy; [destruct Hy as [->|Hy]; [left; reflexivity|right; apply I, Hy]|right; apply I, Hy].
Qed.
(** the pruning of a symmetric laminate never raises; the angles it keeps are candidates *)
Lemma pruning_total c n level hm bot top child : sym c = true -> (contig c = true -> (2 <= n_contig c <= 6)%nat) ->
  (1 <= level -> bot <> [])%nat ->
  exists r, pruning c n level hm bot top child = Ok r /\ forall l, r = Some l -> incl l (if (Nat.eqb (S level) n && hm)%bool then [0; 90] else child).
Proof.
  intros Sy Nc Hb. unfold pruning. rewrite Sy. cbn [negb andb orb]. set (last := Nat.eqb (S level) n). set (cs := if (last && hm)%bool then [0; 90] else child).
  rewrite orb_false_r.
  assert (NE : forall l, incl l cs -> forall m, none_if_empty l = Some m -> incl m cs) by (intros [|x l] I m X; [discriminate|]; injection X as <-; exact I).
  destruct (dam_tol c && (level =? 0)%nat)%bool eqn:E1; [eexists; split; [reflexivity|]; intros l X; apply (NE _ (fun y Hy => proj1 (proj1 (filter_In _ _ _) Hy)) _ X)|].
  destruct (dam_tol c && ((dam_tol_rule c =? 2)%nat || (dam_tol_rule c =? 3)%nat) && (level =? 1)%nat)%bool eqn:E2.
  { apply andb_true_iff in E2. destruct E2 as [_ L1]. apply Nat.eqb_eq in L1. specialize (Hb ltac:(lia)).
    destruct (filterR_total (second_ply c (getR bot 0)) cs) as [r [-> I]].
    { intros x _. unfold second_ply. destruct bot as [|y bot]; [congruence|]. assert (O : getR (y :: bot) 0 = Ok y) by reflexivity. rewrite O. cbn [bind].
      repeat match goal with |- context [if ?b then _ else _] => destruct b end; eexists; reflexivity. }
    cbn [bind]. eexists. split; [reflexivity|]. apply NE, I. }
  rewrite andb_false_r.
  assert (D : exists r, prune_diso c last level bot top cs = Ok r /\ incl r cs).
  { unfold prune_diso. rewrite Sy. cbn [orb negb andb]. destruct (diso c); [|exists cs; split; [reflexivity|apply incl_refl]].
    destruct (py_get bot (-1)); eexists; (split; [reflexivity|]); [intros y Hy; apply filter_In in Hy; apply Hy|apply incl_refl]. }
  destruct D as [r [-> I]]. cbn [bind]. destruct (diso c && _)%bool; [eexists; split; [reflexivity|discriminate]|].
  assert (C : exists r', prune_contig c last hm level bot r = Ok r' /\ incl r' r).
  { unfold prune_contig. rewrite Sy. cbn [orb]. destruct (contig c) eqn:Ec; [|exists r; split; [reflexivity|apply incl_refl]]. specialize (Nc eq_refl).
    assert (N26 : (Nat.leb 2 (n_contig c) && Nat.leb (n_contig c) 6)%bool = true) by (apply andb_true_iff; split; apply Nat.leb_le; lia).
    destruct last; cbn [negb]; apply filterR_total; intros x _.
    - unfold internal_contig2. rewrite Ec, N26. cbn [negb]. destruct (_ <? _)%nat; eauto.
    - unfold external_contig, guard. cbn [Nat.ltb Nat.leb bind]. unfold ext_contig_part. rewrite Ec, N26. destruct bot; cbn [bind]; eauto. }
  destruct C as [r' [-> I']]. cbn [bind]. destruct (contig c && _)%bool; eexists; (split; [reflexivity|]); [discriminate|]. intros l X. injection X as <-. intros y Hy. apply I, I', Hy.
Qed.

(* ---------------- the beam ---------------- *)
Section Total.
Variables (pb : problem) (e : nat).
Hypothesis Sy : sym (p_cons pb) = true.
Hypothesis Nc : contig (p_cons pb) = true -> (2 <= n_contig (p_cons pb) <= 6)%nat.
Hypothesis Hlen : length (p_pdl pb) = length (p_mat pb).
Hypothesis Hthick : (p_thick pb < length (p_pdl pb))%nat.
Hypothesis Mid : p_middle pb = true -> In 0 (set_of_angles (p_cons pb)) /\ In 90 (set_of_angles (p_cons pb)).
Variable planned : list nat.
Hypothesis Seq : planned = seq 0 (length planned).
Hypothesis Kept : forall l, In l planned -> 0 <= nth l (nth (p_thick pb) (p_pdl pb) []) (-1).
Hypothesis low : forall ls l rest h, planned = ls ++ l :: rest -> reach pb (ls ++ [l]) h -> (-6666 < score_of pb e (ls ++ [l]) l h)%Q.
Hypothesis high : forall ls l rest h, planned = ls ++ l :: rest -> reach pb (ls ++ [l]) h -> (score_of pb e (ls ++ [l]) l h < 6666)%Q.

Lemma in_index set x : In x set -> exists k, ind_angle set x = Some k.
Proof. intros H. destruct (ind_angle set x) eqn:E; [eauto|]. destruct (Properties_swap.ind_angle_none set x H E). Qed.

Lemma expand_total ls l rest h olds news t : planned = ls ++ l :: rest -> reach pb ls h -> (forall h', In h' news -> reach pb (ls ++ [l]) h') ->
  mixed pb e ls l (h :: olds) news t -> exists t', expand pb (Nat.eqb l e) l t = Ok t'.
Proof.
  intros Pl R Rn [E1 [E2 [oo [Lo [Bo E3]]]]]. pose proof (reach_length _ _ _ R) as L. destruct oo as [|o oo]; [discriminate|].
  assert (Ll : l = length ls).
  { assert (A : nth (length ls) planned 0%nat = l) by (rewrite Pl, app_nth2, Nat.sub_diag by lia; reflexivity).
    assert (B : (length ls < length planned)%nat) by (rewrite Pl, app_length; cbn [length]; lia).
    rewrite Seq, seq_nth in A by exact B. lia. }
  unfold expand. cbn [map app] in E1, E2, E3. rewrite E1, E2, E3. fold (guide pb ls h).
  rewrite (guide_sym pb ls h Sy Hlen Hthick) by (auto; intros l' I; apply Kept; rewrite Pl; apply in_app_iff; left; exact I). cbn [fst snd].
  destruct (pruning_total (p_cons pb) (p_n pb) l (p_middle pb) h [] (set_of_angles (p_cons pb)) Sy Nc) as [r [P I]].
  { intros H ->. cbn in L. lia. }
  rewrite P. cbn [bind]. destruct r as [angs|]; [|eexists; reflexivity]. specialize (I angs eq_refl).
  assert (K : existsb (fun a => match ind_angle (set_of_angles (p_cons pb)) a with Some _ => false | None => true end) angs = false).
  { apply not_true_is_false. intros X. apply existsb_exists in X. destruct X as [a [Ia Xa]]. assert (In a (set_of_angles (p_cons pb))) as Is.
    { apply I in Ia. destruct (Nat.eqb (S l) (p_n pb) && p_middle pb)%bool eqn:Em; [|exact Ia]. apply andb_true_iff in Em. destruct Em as [_ Em]. destruct (Mid Em). destruct Ia as [<-|[<-|[]]]; auto. }
    apply in_index in Is. destruct Is as [k ->] in Xa. discriminate. }
  unfold guard. rewrite K. cbn [bind]. rewrite map_map.
  cbn in Lo; injection Lo as Lo.
  destruct (Nat.eqb (S l) (p_n pb)); [unfold local_pruning; cbn [negb andb]; eexists; reflexivity|].
  match goal with |- exists t', local_pruning _ _ ?lim ?tt = _ => destruct (C32_local_pruning _ _ tt (length angs) lim) as [t1 [fs [E _]]] end.
  - cbn [t_ss t_obj]. rewrite !app_length, !map_length; lia.
  - cbn [t_num t_obj]. rewrite !app_length, !map_length; lia.
  - cbn [t_obj]. rewrite !app_length, !map_length; lia.
  - cbn [t_obj]. intros x Hx. rewrite !in_app_iff in Hx. destruct Hx as [[Hx|Hx]|Hx].
    + apply Bo; now right.
    + apply in_map_iff in Hx; destruct Hx as [y [<- Hy]]. apply (low _ _ rest); auto.
    + apply in_map_iff in Hx; destruct Hx as [a [<- Ha]].
      rewrite (child_numbers_of pb e ls h l a L). change (p_score pb l (map fst (num_of pb e (ls ++ [l]) (h ++ [a])))) with (score_of pb e (ls ++ [l]) l (h ++ [a])).
      apply (low _ _ rest); auto. eapply reach_snoc; eauto.
      * rewrite (guide_sym pb ls h Sy Hlen Hthick) by (auto; intros l' I'; apply Kept; rewrite Pl; apply in_app_iff; left; exact I'). exact P.
      * intros N. assert (existsb (fun a => match ind_angle (set_of_angles (p_cons pb)) a with Some _ => false | None => true end) angs = true) as T by (apply existsb_exists; exists a; split; [exact Ha|rewrite N; reflexivity]). congruence.
  - eauto.
Qed.

Lemma expand_nodes_total ls l rest : planned = ls ++ l :: rest -> forall olds news t,
  (forall h, In h olds -> reach pb ls h) -> (forall h, In h news -> reach pb (ls ++ [l]) h) ->
  mixed pb e ls l olds news t -> exists t', expand_nodes pb (Nat.eqb l e) l (length olds) t = Ok t'.
Proof.
  intros Pl. induction olds as [|h olds IH]; intros news t R1 R2 M; cbn [length expand_nodes]; [eauto|].
  destruct (expand_total ls l rest h olds news t Pl (R1 h (or_introl eq_refl)) R2 M) as [t1 E]. rewrite E. cbn [bind].
  destruct (expand_mixed pb e Hlen planned low ls l rest h olds news t t1 Pl (R1 h (or_introl eq_refl)) R2 M E) as [more [M1 R3]].
  apply (IH (news ++ more) t1); auto.
  - intros h' I; apply R1; now right.
  - intros h' I; apply in_app_or in I; destruct I; auto.
Qed.

Lemma level_total ls l rest obj hs t : planned = ls ++ l :: rest ->
  (forall h, In h hs -> reach pb ls h) -> (forall h, In h hs -> (-6666 < obj h)%Q) -> in_step pb e ls obj hs t ->
  (exists t', level_step pb (Nat.eqb l e) l t = Ok t') \/ level_step pb (Nat.eqb l e) l t = Err (Raised NoNode).
Proof.
  intros Pl R B [E1 [E2 E3]]. unfold level_step.
  assert (M : mixed pb e ls l hs [] t).
  { split; [rewrite app_nil_r; exact E1|]; split; [rewrite app_nil_r; exact E2|].
    exists (map obj hs); split; [apply map_length|]; split; [|rewrite app_nil_r; exact E3]. intros x Hx; apply in_map_iff in Hx; destruct Hx as [h [<- Hh]]; auto. }
  rewrite E3, map_length. destruct (expand_nodes_total ls l rest Pl hs [] t R) as [t1 E]; [intros h []|exact M|]. rewrite E. cbn [bind].
  destruct (expand_nodes_mixed pb e Hlen planned low ls l rest Pl hs [] t t1 R) as [news [[M1 [M2 [oo [Lo [_ M3]]]]] R1]]; auto; [intros h []|].
  destruct oo; [|discriminate]. cbn [map app] in M1, M2, M3.
  set (lim := if Nat.eqb l e then p_global_final pb else p_global pb) in *.
  destruct (Nat.eq_dec (length (t_obj t1)) 0) as [Z|Z].
  - right. unfold global_pruning. destruct (t_obj t1); [reflexivity|discriminate Z].
  - left. destruct (C32_global_pruning _ _ t1 lim) as [_ G1].
    + rewrite M1, M3, !map_length; reflexivity.
    + rewrite M2, M3, !map_length; reflexivity.
    + intros x Hx; rewrite M3 in Hx; apply in_map_iff in Hx; destruct Hx as [y [<- Hy]]; apply (high _ _ rest); auto.
    + destruct (G1 Z) as [t2 [fs [Eg _]]]. eauto.
Qed.

Lemma from_total : forall levels ls obj hs t, planned = ls ++ levels ->
  (forall h, In h hs -> reach pb ls h) -> (forall h, In h hs -> (-6666 < obj h)%Q) -> in_step pb e ls obj hs t ->
  (exists t', beam_from pb e levels t = Ok t') \/ beam_from pb e levels t = Err (Raised NoNode).
Proof.
  induction levels as [|l levels IH]; intros ls obj hs t Pl R B I; [left; eexists; reflexivity|]. cbn [beam_from].
  destruct (level_total ls l levels obj hs t Pl R B I) as [[t1 E]|E]; rewrite E; cbn [bind]; [|right; reflexivity].
  destruct (level_step_ok pb e Hlen planned low high ls l levels obj hs t t1 Pl R B I E) as [hs1 [I1 [R1 _]]].
  apply (IH (ls ++ [l]) (score_of pb e (ls ++ [l]) l) hs1 t1); auto; [rewrite <- app_assoc; exact Pl|]. intros h Hh. apply (low _ _ levels); auto.
Qed.
End Total.

From Verif Require Import Spacing Strip Objectives Levels Pipeline Properties_levels Properties_pipeline Properties_guide Properties_moments Properties_repairmp RepairMp SpecRedesign Redesign RedesignProofs StripProofs Properties_format Properties_redesign.
From Verif Require Import Final Properties_final.
From Verif Require Properties_layoutreturns Properties_repairdiso Properties_repairreturns.

Lemma mapM_total {A B} (f : A -> result B) l : (forall x, In x l -> exists y, f x = Ok y) -> exists r, mapM f l = Ok r.
Proof.
  induction l as [|x l IH]; intros H; [eexists; reflexivity|]. cbn [mapM]. destruct (H x (or_introl eq_refl)) as [y ->]. cbn [bind]. destruct IH as [r ->]; [intros; apply H; right; auto|]. eexists; reflexivity.
Qed.

Lemma combine_nth' {A B} (l : list A) (m : list B) i a b : length l = length m -> nth i (List.combine l m) (a, b) = (nth i l a, nth i m b).
Proof. apply combine_nth. Qed.
Lemma combine_len {A B} (l : list A) (m : list B) : length l = length m -> length (List.combine l m) = length l.
Proof. intros H. rewrite combine_length. lia. Qed.
Lemma nth_map' {A B} (f : A -> B) l i d d' : (i < length l)%nat -> nth i (map f l) d = f (nth i l d').
Proof. revert i; induction l as [|x l IH]; intros [|i] H; cbn in *; try lia; auto. apply IH; lia. Qed.

(** the searched half of a mirrored row holds at most half of its plies, the middle one included *)
Lemma mirrored_half_le (r : list Z) k : (length r = 2 * k \/ length r = 2 * k - 1)%nat -> map kept r = rev (map kept r) -> (2 * countb kept (firstn k r) <= length (filter kept r) + 1)%nat.
Proof.
  intros L E. set (m := (length r - k)%nat).
  assert (C : forall l : list Z, length (filter kept l) = length (filter (fun b : bool => b) (map kept l))).
  { induction l as [|x l IH]; cbn; [reflexivity|]. destruct (kept x); cbn; rewrite IH; reflexivity. }
  assert (R : forall l : list bool, length (filter (fun b => b) (rev l)) = length (filter (fun b => b) l)).
  { induction l as [|x l IH]; cbn; [reflexivity|]. rewrite filter_app, app_length, IH. destruct x; cbn; lia. }
  assert (S : map kept (skipn k r) = rev (map kept (firstn m r))).
  { rewrite <- skipn_map, <- firstn_map. rewrite E at 1. rewrite skipn_rev, map_length. reflexivity. }
  assert (Le : (length (filter kept (firstn k r)) <= length (filter kept (firstn m r)) + 1)%nat).
  { replace (firstn k r) with (firstn m r ++ firstn (k - m) (skipn m r)).
    2: { rewrite firstn_skipn_comm. replace (m + (k - m))%nat with k by (unfold m; lia). rewrite <- (firstn_skipn m (firstn k r)) at 2.
         rewrite firstn_firstn. replace (Nat.min m k) with m by (unfold m; lia). reflexivity. }
    rewrite filter_app, app_length. assert (length (filter kept (firstn (k - m) (skipn m r))) <= length (firstn (k - m) (skipn m r)))%nat.
    { generalize (firstn (k - m) (skipn m r)) as l. clear. induction l as [|x l IH]; cbn; [lia|]. destruct (kept x); cbn; lia. }
    rewrite firstn_length in *. unfold m in *. lia. }
  rewrite <- (firstn_skipn k r) at 2. rewrite filter_app, app_length, (C (skipn k r)), S, R, <- C. unfold countb. lia.
Qed.

(** what the set-up of the search gives *)
Record search_ready (b : bella) (pb : problem) : Prop := {
  r_cons : p_cons pb = b_cons b;
  r_tables : length (p_pdl pb) = length (p_mat pb);
  r_thick : (p_thick pb < length (p_pdl pb))%nat;
  r_middle : p_middle pb = true -> In 0 (set_of_angles (b_cons b)) /\ In 90 (set_of_angles (b_cons b));
  r_levels : levels b = seq 0 (length (levels b));
  r_some : levels b <> [];
  r_kept : forall l, In l (levels b) -> 0 <= nth l (nth (p_thick pb) (p_pdl pb) []) (-1);
  r_scores : forall l1 l l2 h, levels b = l1 ++ l :: l2 -> reach pb (l1 ++ [l]) h -> (-6666 < score_of pb (last (levels b) 0%nat) (l1 ++ [l]) l h < 6666)%Q;
  r_n : p_n pb = length (levels b);
  r_local : p_local pb = b_local b; r_local_final : p_local_final pb = b_local_final b;
  r_global : p_global pb = b_global b; r_global_final : p_global_final pb = b_global_final b }.
Lemma search_is_ready a b pdl :
  well_given a b -> layout_given (b_cons b) (b_plies b) (b_ref b) pdl ->
  sym (b_cons b) = true -> (Z.even (nth (b_ref b) (b_plies b) 0) = true \/ In 0 (set_of_angles (b_cons b)) /\ In 90 (set_of_angles (b_cons b))) ->
  (forall j, (j < length (b_plies b))%nat -> zlen (plies_of (nth j pdl [])) = nth j (b_plies b) 0) ->
  (forall r x, In r pdl -> In x r -> -1 <= x) ->
  exists pb, search_problem b pdl = Ok pb /\ search_ready b pb.
Proof.
  intros W G Sy Ev Hc Hx. pose proof (w_ref a b W) as Hr. pose proof (g_rows _ _ _ _ G) as Gr.
  destruct (n_thick a b W) as [T3 Tl]. pose proof (w_weights a b W) as Lw.
  assert (El : levels b = seq 0 (n_half (n_thickest b))) by (unfold levels, ply_order; rewrite Sy; reflexivity).
  assert (Ln : length (levels b) = n_half (n_thickest b)) by (rewrite El; apply seq_length).
  assert (Even : forall j, (j < length (b_plies b))%nat -> Z.even (nth j (b_plies b) 0) = Z.even (nth (b_ref b) (b_plies b) 0)) by (intros j Hj; apply (w_parity a b W Sy j Hj)).
  assert (Half : forall i, (i < length (b_plies b))%nat -> (3 <= Z.to_nat (nth i (b_plies b) 0%Z))%nat /\ (countb kept (firstn (length (levels b)) (nth i pdl [])) <= n_half (Z.to_nat (nth i (b_plies b) 0%Z)))%nat).
  { intros i Hi. pose proof (plies_three a b W i Hi) as P3. split; [lia|].
    assert (Hi2 : (i < length pdl)%nat) by lia. pose proof (g_width _ _ _ _ G _ (nth_In pdl [] Hi2)) as Gw. unfold zlen in Gw.
    assert (M : map kept (nth i pdl []) = rev (map kept (nth i pdl []))) by (apply (mirror_mask _ (nth i pdl []) eq_refl), (g_mirror _ _ _ _ G Sy i Hi2)).
    pose proof (n_half_spec (n_thickest b)).
    pose proof (mirrored_half_le (nth i pdl []) (length (levels b)) ltac:(lia) M) as C. pose proof (Hc i Hi) as C2. unfold zlen in C2. rewrite plies_kept in C2.
    pose proof (n_half_spec (Z.to_nat (nth i (b_plies b) 0))). lia. }
  set (searched := map (firstn (length (levels b))) pdl).
  assert (Ls : length searched = length (b_plies b)) by (unfold searched; rewrite map_length; exact Gr).
  assert (Sn : forall i, (i < length (b_plies b))%nat -> nth i searched [] = firstn (length (levels b)) (nth i pdl [])) by (intros i Hi; apply nth_map'; lia).
  assert (E : exists pb, search_problem b pdl = Ok pb).
  { unfold search_problem. fold searched. cbv zeta.
    destruct (mapM_total (fun rn => lampam_matrix (fst rn) (delta_lampams (sym (b_cons b)) (b_cos_sin b) (Z.to_nat (snd rn)))) (List.combine searched (b_plies b))) as [mat ->].
    { intros [r n] I. apply (In_nth _ _ ([], 0)) in I. destruct I as [i [Hi E]]. rewrite combine_len in Hi by lia. rewrite combine_nth' in E by lia. injection E as <- <-. cbn [fst snd].
      destruct (lampam_matrix_ok (nth i searched []) (delta_lampams (sym (b_cons b)) (b_cos_sin b) (Z.to_nat (nth i (b_plies b) 0)))) as (M & EM & _); [|eauto].
      rewrite (Sn i ltac:(lia)). destruct (Half i ltac:(lia)) as [_ H]. rewrite delta_lampams_rows, Sy. unfold mom_areas. rewrite !map_length, ?seq_length. exact H. }
    cbn [bind].
    destruct (mapM_total (fun x => level_weightings (sym (b_cons b)) (Z.to_nat (snd (fst x))) (fst (fst x)) (snd x)) (List.combine (List.combine searched (b_plies b)) (b_weights b))) as [tables ->].
    { intros [[r n] w] I. apply (In_nth _ _ (([], 0), [])) in I. destruct I as [i [Hi E]]. rewrite !combine_len in Hi by (rewrite ?combine_len; lia). rewrite !combine_nth' in E by (rewrite ?combine_len; lia). injection E as <- <- <-. cbn [fst snd].
      destruct (Half i ltac:(lia)) as [P3 H]. pose proof (w_normalised a b W) as N. rewrite Forall_forall in N. assert (Hi' : (i < length (b_weights b))%nat) by lia. destruct (N _ (nth_In (b_weights b) [] Hi')) as [N1 _].
      destruct (C84_level_weightings (sym (b_cons b)) (Z.to_nat (nth i (b_plies b) 0)) (nth i searched []) (nth i (b_weights b) [])) as (T & ET & _); [lia| |exact N1|eauto].
      rewrite (Sn i ltac:(lia)), Sy. unfold ply_order. rewrite seq_length. exact H. }
    cbn [bind].
    assert (A : forall A (l : list (list A)), (forall t, In t l -> length t = 12%nat) -> forallb (fun t => has_size 12 t) l = true) by (intros A l H; apply forallb_forall; intros t I; unfold has_size; apply Nat.eqb_eq, H, I).
    pose proof (w_target_range a b W) as A1. pose proof (w_normalised a b W) as A2. rewrite Forall_forall in A1, A2.
    match goal with |- context [guard (negb ?x) _] => assert (x = true) as -> end.
    { repeat (apply andb_true_iff; split); [apply A; intros t I; apply A1, I|apply A; intros t I; apply A2, I|..]; unfold has_size; apply Nat.eqb_eq; rewrite Ls; apply W. }
    cbn [negb guard bind]. eexists. reflexivity. }
  destruct E as [pb E]. exists pb.
  destruct (search_set_up a b pdl pb W Gr E) as [tables U].
  assert (Lp : length (p_pdl pb) = length (b_plies b)) by (rewrite (u_rows _ _ _ _ U), map_length; exact Gr).
  assert (Lm : length (p_mat pb) = length (b_plies b)) by apply U.
  assert (Ep : p_thick pb = (length (b_plies b) - 1)%nat /\ (p_middle pb = true -> In 0 (set_of_angles (b_cons b)) /\ In 90 (set_of_angles (b_cons b))) /\ p_global_final pb = b_global_final b /\ p_n pb = length (levels b) /\ p_local pb = b_local b /\ p_local_final pb = b_local_final b /\ p_global pb = b_global b).
  { revert E. unfold search_problem. cbv zeta. destruct (mapM _ _); cbn [bind]; [|discriminate]. destruct (mapM _ _); cbn [bind]; [|discriminate]. unfold guard. destruct (negb _); cbn [bind]; [discriminate|].
    intros X. injection X as <-. cbn [p_thick p_middle p_global_final p_n p_local p_local_final p_global]. split; [reflexivity|]. split; [|repeat split]. intros X. destruct Ev as [Ev|Ev]; [exfalso|exact Ev]. apply existsb_exists in X. destruct X as [p [Ip Xp]].
    unfold final_panels in Ip. apply in_map_iff in Ip. destruct Ip as [n [<- In_]]. apply (In_nth _ _ 0) in In_. destruct In_ as [i [Hi <-]]. cbn in Xp. rewrite Sy, <- Z.negb_even, (Even i Hi), Ev in Xp. discriminate. }
  destruct Ep as (Et & Em & Eg & En & El1 & El2 & Eg1).
  destruct (levels_facts a b W) as (_ & Ne & _ & Lt).
  assert (B : forall l1 l l2 h, levels b = l1 ++ l :: l2 -> reach pb (l1 ++ [l]) h -> (-6666 < score_of pb (last (levels b) 0%nat) (l1 ++ [l]) l h < 6666)%Q).
  { intros l1 l l2 h Hl _. pose proof (C84_score_range a b pdl pb W G E l1 l l2 h Hl) as S. unfold score_of. rewrite node_lampams_nth. unfold node_lampams in S. rewrite node_lampams_nth in S. lra. }
  assert (L : length (p_pdl pb) = length (p_mat pb)) by lia.
  pose proof (u_cons _ _ _ _ U) as Uc.
  split; [exact E|]. constructor; auto.
  - lia.
  - rewrite El at 1. rewrite Ln. reflexivity.
  - intros l Il. specialize (Lt l Il). rewrite Et, (u_rows _ _ _ _ U). fold searched. rewrite Sn by lia. rewrite nth_firstn by lia.
    assert (Hi : (length (b_plies b) - 1 < length pdl)%nat) by lia. pose proof (g_width _ _ _ _ G _ (nth_In pdl [] Hi)) as Gw. unfold zlen in Gw.
    set (row := nth (length (b_plies b) - 1) pdl []) in *. assert (Il2 : In (nth l row (-1)) row) by (apply nth_In; pose proof (n_half_spec (n_thickest b)); lia).
    pose proof (Hx row _ (nth_In pdl [] Hi) Il2) as X1. assert (nth l row (-1) <> dropped) as X2; [|unfold dropped in X2; lia].
    intros X. apply (g_thickest _ _ _ _ G). rewrite last_is_nth, Gr. fold row. rewrite <- X. exact Il2.
Qed.

(** The search of a symmetric structure (whose angles have 0 and 90 when there is a middle ply), over any ply-drop layout with the ply
    counts of the panels, ends with at least one design, or with the exception raised when no
    design is left; nothing else can stop it *)
Theorem C99_search_answers : forall a b pdl,
  well_given a b -> layout_given (b_cons b) (b_plies b) (b_ref b) pdl ->
  sym (b_cons b) = true -> (Z.even (nth (b_ref b) (b_plies b) 0) = true \/ In 0 (set_of_angles (b_cons b)) /\ In 90 (set_of_angles (b_cons b))) ->
  (forall j, (j < length (b_plies b))%nat -> zlen (plies_of (nth j pdl [])) = nth j (b_plies b) 0) ->
  (forall r x, In r pdl -> In x r -> -1 <= x) ->
  exists pb, search_problem b pdl = Ok pb /\
    ((exists t, beam pb (levels b) = Ok t /\ (1 <= b_global_final b -> t_ss t <> [])%nat /\ (length (t_ss t) <= b_global_final b)%nat) \/
     beam pb (levels b) = Err (Raised NoNode)).
Proof.
  intros a b pdl W G Sy Ev Hc Hx. destruct (search_is_ready a b pdl W G Sy Ev Hc Hx) as (pb & E & [Uc L Th Em El Ne Kp B En _ _ _ Eg]). exists pb. split; [exact E|].
  assert (Tot : (exists t, beam pb (levels b) = Ok t) \/ beam pb (levels b) = Err (Raised NoNode)).
  { unfold beam. refine (from_total pb (last (levels b) 0%nat) _ _ L _ _ (levels b) _ _ (fun l1 l l2 h P R => proj1 (B l1 l l2 h P R)) (fun l1 l l2 h P R => proj2 (B l1 l l2 h P R)) (levels b) [] (fun _ => 0%Q) [[]] (start pb) eq_refl _ _ _).
    - rewrite Uc; exact Sy.
    - intros Y. rewrite Uc in *. apply (w_contig a b W Y).
    - exact Th.
    - rewrite Uc. exact Em.
    - exact El.
    - exact Kp.
    - intros h [<-|[]]; constructor.
    - intros h _; reflexivity.
    - split; [|split; [|reflexivity]].
      + unfold start, ss_of; cbn [t_ss map]; f_equal. unfold panel_node; cbn [search nd_bot nd_top node0].
        revert L; clear; generalize (p_mat pb); induction (p_pdl pb) as [|r p IH]; intros [|m q] L; cbn in *; try lia; auto. f_equal; apply IH; lia.
      + unfold start, num_of; cbn [t_num map]; f_equal. unfold panel_node; cbn [search nd_lampam node0 counts_of].
        revert L; clear; generalize (p_mat pb); induction (p_pdl pb) as [|r p IH]; intros [|m q] L; cbn in *; try lia; auto. f_equal; apply IH; lia. }
  destruct Tot as [[t X]|X]; [left; exists t|right; exact X]. split; [exact X|].
  destruct (beam_reach_ok pb (levels b) t L (fun l1 l l2 h P R => proj1 (B l1 l l2 h P R)) (fun l1 l l2 h P R => proj2 (B l1 l l2 h P R)) X Ne) as (hs & (E1 & _) & _ & Lh & Nh).
  rewrite Eg in *. rewrite E1, map_length. split; [|exact Lh]. intros P Z. apply (Nh P). destruct hs; [reflexivity|discriminate].
Qed.
Print Assumptions C99_search_answers.

(** The run of a layout over such a structure: a design is reported, or the search has raised
    because no design was left. The laminates of the designs found have to be in reach of the
    repair, and one has to be repaired with a finite objective, as in C98 *)
Theorem C99_layout_answers : forall a b pdl,
  well_given a b -> layout_given (b_cons b) (b_plies b) (b_ref b) pdl ->
  sym (b_cons b) = true -> Z.even (nth (b_ref b) (b_plies b) 0) = true ->
  (forall j, (j < length (b_plies b))%nat -> zlen (plies_of (nth j pdl [])) = nth j (b_plies b) 0) ->
  (forall r x, In r pdl -> In x r -> -1 <= x) ->
  Properties_layoutreturns.ready_oracles b ->
  (forall pb t, search_problem b pdl = Ok pb -> beam pb (levels b) = Ok t ->
    (forall d s, In d (t_ss t) -> joined (b_cons b) (panel_of (b_cons b) (nth (b_ref b) (b_plies b) 0)) (nth (b_ref b) d ([], [])) s -> Properties_repairreturns.plain_repair (b_cons b) (b_rparams b) s) /\
    (exists d r q, In d (t_ss t) /\ repaired_to (b_cons b) (final_panels b) (repair_of b pdl) d r /\
       valued (b_cons b) (final_panels b) (b_lampam b) (b_pen10 b) (b_targets b) (b_weights b) (b_panel_weightings b) (b_coeffs b) r q /\ (q < 10000000000)%Q)) ->
  (exists o, optimise_layout b pdl = Ok (Some o) /\ (o_total o < 10000000000)%Q /\ delivered b o) \/
  optimise_layout b pdl = Err (Raised NoNode).
Proof.
  intros a b pdl W G Sy Ev Hc Hx [O1 O2 O3 O4 O5] Y. destruct (C99_search_answers a b pdl W G Sy (or_introl Ev) Hc Hx) as (pb & E & [(t & X & _)|X]).
  - left. destruct (Y pb t E X) as [Pl Rp].
    exact (proj2 (Properties_layoutreturns.C98_layout_returns a b pdl pb t W G Sy Ev Hc Hx E X O1 O2 O3 O4 O5 Pl) Rp).
  - right. unfold optimise_layout. rewrite E. cbn [bind]. rewrite X. reflexivity.
Qed.
Print Assumptions C99_layout_answers.

(** two panels of 8 and 12 plies: the search answers with two designs *)
Example C99_example : exists c, let b := bella_ex c [8; 12] 1 in
  mk_cons (args_re true true true) = Ok c /\ well_given (args_re true true true) b /\ layout_given (b_cons b) (b_plies b) (b_ref b) layout_1 /\
  sym (b_cons b) = true /\ Z.even (nth (b_ref b) (b_plies b) 0) = true /\
  (forall j, (j < length (b_plies b))%nat -> zlen (plies_of (nth j layout_1 [])) = nth j (b_plies b) 0) /\
  (forall r x, In r layout_1 -> In x r -> -1 <= x) /\ Properties_layoutreturns.ready_oracles b /\
  (exists pb t, search_problem b layout_1 = Ok pb /\ beam pb (levels b) = Ok t /\ length (t_ss t) = 2%nat) /\
  (forall pb t, search_problem b layout_1 = Ok pb -> beam pb (levels b) = Ok t ->
    (forall d s, In d (t_ss t) -> joined (b_cons b) (panel_of (b_cons b) (nth (b_ref b) (b_plies b) 0)) (nth (b_ref b) d ([], [])) s -> Properties_repairreturns.plain_repair (b_cons b) (b_rparams b) s) /\
    (exists d r q, In d (t_ss t) /\ repaired_to (b_cons b) (final_panels b) (repair_of b layout_1) d r /\
       valued (b_cons b) (final_panels b) (b_lampam b) (b_pen10 b) (b_targets b) (b_weights b) (b_panel_weightings b) (b_coeffs b) r q /\ (q < 10000000000)%Q)).
Proof.
  destruct Properties_layoutreturns.C98_example as (c & pb & t & E & W & G & Sy & Ev & Hc & Hx & Ep & X & N & L12 & Sh & Ip & P10 & Bd & Pl & Rp). exists c. cbv zeta.
  assert (Ec : b_cons (bella_ex c [8; 12] 1) = c) by reflexivity.
  split; [exact E|]. split; [exact W|]. split; [exact G|]. split; [exact Sy|]. split; [exact Ev|]. split; [exact Hc|]. split; [exact Hx|]. split; [constructor; auto|].
  split; [exists pb, t; auto|]. intros pb' t' E' X'. assert (pb' = pb) as -> by congruence. assert (t' = t) as -> by congruence. split; [exact Pl|exact Rp].
Qed.
Print Assumptions C99_example.

(** panels of 7 and 11 plies, with a middle ply *)
Definition layout_odd : list (list Z) := [[1; -1; 2; -1; 3; 0; 3; -1; 2; -1; 1]; [1; 2; 3; 4; 5; 0; 5; 4; 3; 2; 1]].
Lemma ex_given_odd c : mk_cons (args_re true true true) = Ok c -> well_given (args_re true true true) (bella_ex c [7; 11] 1).
Proof.
  intros E. pose proof (ex_given c E) as [A1 A2 A3 A4 A5 A6 A7 A8 A9 A10 A11 A12 A13 A14 A15 A16].
  constructor; try assumption; cbn [bella_ex bella_on b_plies b_ref].
  - repeat constructor.
  - repeat constructor; discriminate.
  - cbn; lia.
  - intros _ [|[|i]] Hi; try reflexivity. cbn in Hi. lia.
Qed.
Example C99_middle_example : exists c, let b := bella_ex c [7; 11] 1 in
  mk_cons (args_re true true true) = Ok c /\ well_given (args_re true true true) b /\ layout_given (b_cons b) (b_plies b) (b_ref b) layout_odd /\
  sym (b_cons b) = true /\ Z.even (nth (b_ref b) (b_plies b) 0) = false /\ In 0 (set_of_angles (b_cons b)) /\ In 90 (set_of_angles (b_cons b)) /\
  (forall j, (j < length (b_plies b))%nat -> zlen (plies_of (nth j layout_odd [])) = nth j (b_plies b) 0) /\
  (forall r x, In r layout_odd -> In x r -> -1 <= x) /\
  exists pb t, search_problem b layout_odd = Ok pb /\ beam pb (levels b) = Ok t /\ length (t_ss t) = 2%nat.
Proof.
  destruct (mk_cons (args_re true true true)) as [c|] eqn:E; [|vm_compute in E; discriminate]. exists c. pose proof (ex_given_odd c E) as W. cbv zeta.
  assert (Run : match search_problem (bella_ex c [7; 11] 1) layout_odd with Ok pb => match beam pb (levels (bella_ex c [7; 11] 1)) with Ok t => length (t_ss t) = 2%nat | _ => False end | _ => False end).
  { clear - E. vm_compute in E. injection E as <-. vm_compute. reflexivity. }
  assert (S : sym c = true /\ In 0 (set_of_angles c) /\ In 90 (set_of_angles c)) by (clear - E; vm_compute in E; injection E as <-; split; [reflexivity|]; cbn; tauto).
  destruct S as (S1 & S2 & S3).
  split; [reflexivity|]. split; [exact W|].
  split; [constructor; [reflexivity|intros r [<-|[<-|[]]]; reflexivity|unfold dropped; cbn; lia|reflexivity|intros _ [|[|i]] Hi; try reflexivity; cbn in Hi; lia]|].
  split; [exact S1|]. split; [reflexivity|]. split; [exact S2|]. split; [exact S3|].
  split; [intros [|[|j]] Hj; try reflexivity; cbn in Hj; lia|].
  split; [intros r x [<-|[<-|[]]] Hx; cbn in Hx; intuition lia|].
  destruct (search_problem (bella_ex c [7; 11] 1) layout_odd) as [pb|]; [|destruct Run]. destruct (beam pb (levels (bella_ex c [7; 11] 1))) as [t|] eqn:X; [|destruct Run].
  exists pb, t. auto.
Qed.
Print Assumptions C99_middle_example.

(** The condition on the angles is needed: with a middle ply, whose candidates are 0 and 90
    whatever the angles of the constraints are, the search of a structure whose angles are
    -45, 0 and 45 stops on a KeyError *)
Definition args_no90 : cargs := {|
  a_sym := true; a_bal := true; a_oopo := false; a_dam_tol := false;
  a_rule_10_percent := false; a_rule_10_Abdalla := false; a_percent_Abdalla := 0;
  a_combine_45_135 := true; a_calc_combine_45_135 := true;
  a_percent_0 := 10; a_percent_45 := 0; a_percent_90 := 10; a_percent_135 := 0;
  a_percent_45_135 := 10;
  a_diso := false; a_contig := true; a_n_contig := 5; a_delta_angle := 45;
  a_dam_tol_rule := 1; a_set_of_angles := [0; 45; -45]; a_min_drop := 2;
  a_pdl_spacing := true; a_covering := false; a_n_covering := 0 |}.
Lemma ex_given_no90 c : mk_cons args_no90 = Ok c -> well_given args_no90 (bella_ex c [7; 11] 1).
Proof.
  intros E. destruct (mk_cons (args_re true true true)) as [c0|] eqn:E0; [|vm_compute in E0; discriminate].
  pose proof (ex_given c0 E0) as [_ _ _ _ _ _ A7 A8 A9 A10 A11 A12 _ _ A15 A16]. cbn [bella_ex bella_on b_plies b_targets b_weights b_panel_weightings b_cos_sin b_save_success_rate] in *.
  pose proof E as E'. vm_compute in E'. injection E' as <-. constructor; cbn [bella_ex bella_on b_cons b_plies b_ref b_targets b_weights b_panel_weightings b_cos_sin b_save_success_rate]; try exact E; try assumption.
  - cbn; intuition discriminate.
  - repeat constructor.
  - repeat constructor; discriminate.
  - cbn; lia.
  - intros _ [|[|i]] Hi; try reflexivity. cbn in Hi. lia.
  - intros _. cbn. split; [lia|reflexivity].
  - left; reflexivity.
Qed.
Theorem C99_middle_refuted : exists c pb, let b := bella_ex c [7; 11] 1 in
  well_given args_no90 b /\ layout_given (b_cons b) (b_plies b) (b_ref b) layout_odd /\ sym (b_cons b) = true /\
  (forall j, (j < length (b_plies b))%nat -> zlen (plies_of (nth j layout_odd [])) = nth j (b_plies b) 0) /\
  (forall r x, In r layout_odd -> In x r -> -1 <= x) /\
  search_problem b layout_odd = Ok pb /\ beam pb (levels b) = Err KeyError.
Proof.
  destruct (mk_cons args_no90) as [c|] eqn:E; [|vm_compute in E; discriminate]. pose proof (ex_given_no90 c E) as W. 
  assert (Run : match search_problem (bella_ex c [7; 11] 1) layout_odd with Ok pb => match beam pb (levels (bella_ex c [7; 11] 1)) with Err KeyError => True | _ => False end | _ => False end).
  { clear - E. vm_compute in E. injection E as <-. vm_compute. exact I. }
  assert (S1 : sym c = true) by (clear - E; vm_compute in E; injection E as <-; reflexivity).
  destruct (search_problem (bella_ex c [7; 11] 1) layout_odd) as [pb|] eqn:Ep; [|destruct Run]. exists c, pb. cbv zeta.
  split; [exact W|].
  split; [constructor; [reflexivity|intros r [<-|[<-|[]]]; reflexivity|unfold dropped; cbn; lia|reflexivity|intros _ [|[|i]] Hi; try reflexivity; cbn in Hi; lia]|].
  split; [exact S1|]. split; [intros [|[|j]] Hj; try reflexivity; cbn in Hj; lia|].
  split; [intros r x [<-|[<-|[]]] Hx; cbn in Hx; intuition lia|]. split; [exact Ep|].
  destruct (beam pb (levels (bella_ex c [7; 11] 1))) as [t|e] eqn:X; [destruct Run|]. destruct e; try (destruct Run; fail). reflexivity.
Qed.
Print Assumptions C99_middle_refuted.
