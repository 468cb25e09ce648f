(* Properties_saved.v - C90: the report file. *)
From Coq Require Import Lqa.
From Verif Require Import Base Constraints Guidelines Spacing Strip Search Objectives Stiffness Final Saved.
Local Open Scope Z_scope.

(** ** Specification *)
(** the rows found on a sheet of a file *)
Definition content {A} (f : file A) (name : sheet) : option (list (list A)) :=
  match f with NoFile => None | File b => sheet_of b name end.
Definition rows_on {A} (f : file A) (name : sheet) : list (list A) := match content f name with Some s => s | None => [] end.
(** no sheet is empty *)
Definition no_empty_sheet {A} (f : file A) : Prop := forall name s, content f name = Some s -> s <> [].
Definition sheet_eq_dec (x y : sheet) : {x = y} + {x <> y}.
Proof. decide equality. apply Nat.eq_dec. Defined.
(** the rows written on a sheet by a list of blocks, in order *)
Fixpoint written {A} (name : sheet) (hist : list (sheet * list (list A))) : list (list A) :=
  match hist with [] => [] | (n, b) :: t => (if sheet_eq_dec n name then b else []) ++ written name t end.
(** every block is appended below what its sheet already holds; nothing else changes *)
Definition extended {A} (f : file A) (hist : list (sheet * list (list A))) (g : file A) : Prop :=
  forall name, rows_on g name = rows_on f name ++ written name hist /\
    (content g name = None <-> content f name = None /\ ~ In name (map fst hist)).
Definition computed {A} (hist : list (sheet * list (list A))) : list (sheet * result (list (list A))) := map (fun x => (fst x, Ok (snd x))) hist.
Definition blocks_ok {A} (hist : list (sheet * list (list A))) : Prop := Forall (fun x => snd x <> []) hist.

(** ** Proofs *)
Lemma sheet_eqb_spec x y : sheet_eqb x y = true <-> x = y.
Proof.
  destruct x, y; cbn; split; try congruence; try reflexivity.
  - intros H. apply Nat.eqb_eq in H. congruence.
  - intros H. injection H as ->. apply Nat.eqb_refl.
Qed.
Lemma sheet_eqb_refl x : sheet_eqb x x = true. Proof. apply sheet_eqb_spec. reflexivity. Qed.
Lemma sheet_eqb_neq x y : x <> y -> sheet_eqb x y = false.
Proof. intros H. destruct (sheet_eqb x y) eqn:E; auto. apply sheet_eqb_spec in E. contradiction. Qed.

Section Book.
Context {A : Type}.
Implicit Types (b : book A) (s : block A) (f : file A).
Lemma sheet_of_set b name s n : sheet_of (set_sheet b name s) n = if sheet_eq_dec name n then Some s else sheet_of b n.
Proof.
  induction b as [|[m x] t IH]; cbn.
  - destruct (sheet_eq_dec name n) as [<-|N]; [now rewrite sheet_eqb_refl|now rewrite (sheet_eqb_neq _ _ N)].
  - destruct (sheet_eqb m name) eqn:E.
    + apply sheet_eqb_spec in E. subst m. cbn. destruct (sheet_eq_dec name n) as [<-|N]; [now rewrite sheet_eqb_refl|now rewrite (sheet_eqb_neq _ _ N)].
    + cbn. destruct (sheet_eqb m n) eqn:E2.
      * apply sheet_eqb_spec in E2. subst n. destruct (sheet_eq_dec name m) as [<-|N]; auto. rewrite sheet_eqb_refl in E. discriminate.
      * exact IH.
Qed.
Lemma over_nil s : over s [] = s. Proof. destruct s; reflexivity. Qed.
Lemma put_end s old : put (length old) s old = old ++ s.
Proof. induction old; cbn; [apply over_nil|now f_equal]. Qed.
Lemma write_end s old : s <> [] -> write_at (length old) s old = old ++ s.
Proof. intros N. unfold write_at. destruct s; [congruence|apply put_end]. Qed.
Lemma max_row_len s : s <> [] -> max_row s = length s.
Proof. destruct s; [congruence|]. intros _. unfold max_row. cbn [length]. lia. Qed.

(** one append *)
Lemma append_extends f name s : no_empty_sheet f -> s <> [] ->
  exists g, append_df f Loads name s None false = (g, None) /\ extended f [(name, s)] g /\ no_empty_sheet g.
Proof.
  intros F N. destruct f as [|b].
  - exists (File [(name, s)]). split; [|split].
    + cbn. unfold write_at. destruct s; [congruence|]. cbn. reflexivity.
    + intros n. unfold rows_on, content. cbn. destruct (sheet_eq_dec name n) as [<-|X].
      * rewrite sheet_eqb_refl. rewrite app_nil_r. split; auto. split; [discriminate|]. intros [_ H]. elim H. now left.
      * rewrite (sheet_eqb_neq _ _ X). split; auto. split; auto. intros _. split; auto. intros [H|[]]. contradiction.
    + intros n t. cbn. destruct (sheet_eqb name n); [|discriminate]. intros H. injection H as <-. exact N.
  - cbn [append_df]. eexists. split; [reflexivity|].
    set (new := write_at _ _ _). assert (E : new = rows_on (File b) name ++ s).
    { unfold new, rows_on, content. destruct (sheet_of b name) as [old|] eqn:E.
      - rewrite max_row_len by (apply (F name); exact E). now apply write_end.
      - apply (write_end s []). exact N. }
    clearbody new. split.
    + intros n. unfold rows_on at 1, content at 1 2. rewrite sheet_of_set. cbn. destruct (sheet_eq_dec name n) as [<-|X].
      * rewrite app_nil_r. split; [exact E|]. split; [discriminate|]. intros [_ H]. elim H. now left.
      * unfold rows_on. cbn. rewrite app_nil_r. split; auto. split; [|intros [H _]; exact H]. intros H. split; auto. intros [Y|[]]. contradiction.
    + intros n t. cbn. rewrite sheet_of_set. destruct (sheet_eq_dec name n) as [<-|X].
      * intros H. injection H as <-. rewrite E. destruct (rows_on (File b) name); [exact N|discriminate].
      * apply (F n).
Qed.
Lemma extended_nil f : extended f [] f.
Proof. intros n. cbn. rewrite app_nil_r. split; auto. split; [|tauto]. intros H; split; auto. Qed.
Lemma extended_trans f g h x hist : extended f [x] g -> extended g hist h -> extended f (x :: hist) h.
Proof.
  intros E1 E2 n. destruct (E1 n) as [R1 C1], (E2 n) as [R2 C2]. destruct x as [m s]. split.
  - rewrite R2, R1. cbn. rewrite app_nil_r. now rewrite app_assoc.
  - cbn in *. rewrite C2, C1. intuition congruence.
Qed.
End Book.

(** *** C90: blocks are appended below what the sheet holds; other sheets are untouched *)
Theorem C90_history_partial : forall A (f : file A) hist load k,
  no_empty_sheet f -> blocks_ok hist -> (forall i, load i = Loads) ->
  exists g, appends load k f (computed hist) = (g, None) /\ extended f hist g /\ no_empty_sheet g.
Proof.
  intros A f hist load k. revert f k. induction hist as [|[n s] t IH]; intros f k F B L.
  - exists f. split; [reflexivity|split; [apply extended_nil|exact F]].
  - inversion B as [|? ? N B']; subst. cbn in N. cbn. rewrite L.
    destruct (append_extends f n s F N) as (g & -> & E & G). destruct (IH g (S k) G B' L) as (h & R & E2 & H).
    exists h. split; [exact R|]. split; [exact (extended_trans _ _ _ _ _ E E2)|exact H].
Qed.

(** *** C90: a failure between two appends leaves what was written before it *)
Theorem C90_failure : forall A (f g : file A) steps load k e,
  no_empty_sheet f -> (forall i, load i = Loads) -> (forall n s, In (n, Ok s) steps -> s <> []) ->
  appends load k f steps = (g, Some e) ->
  exists before n after, steps = computed before ++ (n, Err e) :: after /\ extended f before g /\ no_empty_sheet g.
Proof.
  intros A f g steps load k e. revert f k. induction steps as [|[n r] t IH]; intros f k F L B H; cbn in H; [discriminate|].
  destruct r as [s|x].
  - rewrite L in H. destruct (append_extends f n s F) as (h & E & X & G); [apply (B n); now left|].
    rewrite E in H. destruct (IH h (S k) G L (fun m y I => B m y (or_intror I)) H) as (before & m & after & -> & X2 & Gg).
    exists ((n, s) :: before), m, after. split; [reflexivity|]. split; [exact (extended_trans _ _ _ _ _ X X2)|exact Gg].
  - injection H as <- <-. exists [], n, t. split; [reflexivity|]. split; [apply extended_nil|exact F].
Qed.

(** *** C90: an append never touches another sheet, whatever the row and the truncation asked for *)
Theorem C90_other_sheets : forall A (f : file A) name df startrow truncate g n,
  append_df f Loads name df startrow truncate = (g, None) -> n <> name -> content g n = content f n.
Proof.
  intros A f name df startrow tr g n H N. destruct f as [|b]; cbn in H; injection H as <-; cbn.
  - rewrite sheet_eqb_neq; auto.
  - rewrite sheet_of_set. destruct (sheet_eq_dec name n); [congruence|reflexivity].
Qed.
(** an unreadable workbook is left alone unless the failure is an OSError *)
Theorem C90_unreadable : forall A (b : book A) name df startrow truncate,
  append_df (File b) OtherFailure name df startrow truncate = (File b, Some (Raised Other)).
Proof. reflexivity. Qed.
(** refuted: an OSError while an existing workbook is opened is taken for a missing file: the
    workbook is replaced and all that it held is lost *)
Theorem C90_os_error_refuted : forall A (b : book A) name df n, n <> name ->
  exists g, append_df (File b) OsFailure name df None false = (g, None) /\ content g n = None.
Proof. intros A b name df n N. eexists. split; [reflexivity|]. cbn. rewrite sheet_eqb_neq; auto. Qed.
(** refuted: a truncated sheet does not start with the new block: the block is written below blank
    rows, as many as the sheet had *)
Lemma put_blank {A} k (s : list (list A)) : put k s [] = repeat [] k ++ s.
Proof. induction k; cbn; [apply over_nil|now f_equal]. Qed.
Theorem C90_truncate_refuted : forall A (b : book A) name df old,
  sheet_of b name = Some old -> old <> [] -> df <> [] ->
  exists g, append_df (File b) Loads name df None true = (g, None) /\ content g name = Some (repeat [] (length old) ++ df).
Proof.
  intros A b name df old E N D. cbn [append_df]. rewrite E. eexists. split; [reflexivity|]. cbn [content]. rewrite sheet_of_set.
  destruct (sheet_eq_dec name name); [|congruence]. rewrite max_row_len by exact N. unfold write_at. destruct df; [congruence|]. now rewrite put_blank.
Qed.
(** refuted: after an empty table the next one does not start on the first row *)
Theorem C90_empty_table_refuted : forall A name (s : list (list A)), s <> [] ->
  exists g, appends (fun _ => Loads) 0 NoFile (computed [(name, []); (name, s)]) = (g, None) /\ rows_on g name = [] :: s.
Proof.
  intros A name s N. cbn. rewrite sheet_eqb_refl. eexists. split; [reflexivity|]. unfold rows_on. cbn. rewrite sheet_eqb_refl.
  unfold write_at. destruct s; [congruence|]. reflexivity.
Qed.

(** *** C90: deleting the previous report *)
(** the five accepted answers *)
Definition yes_words : list (list Z) := [[121]; [89]; [89; 101; 115]; [121; 101; 115]; [89; 69; 83]].
Lemma same_word (w a : list Z) : (Nat.eqb (length w) (length a) && forallb (fun p => fst p =? snd p) (List.combine w a))%bool = true <-> w = a.
Proof.
  rewrite andb_true_iff, Nat.eqb_eq. revert a. induction w as [|x w IH]; intros [|y a]; cbn; split; try (intros [L _]; discriminate); try discriminate; auto.
  - intros [L F]. apply andb_true_iff in F. destruct F as [F1 F2]. apply Z.eqb_eq in F1. injection L as L. f_equal; auto. apply IH. auto.
  - intros H. injection H as <- <-. split; [reflexivity|]. rewrite Z.eqb_refl. apply IH. reflexivity.
Qed.
Theorem C90_delete : forall A (f : file A) answer,
  (f = NoFile -> delete_file f answer = Some NoFile) /\
  (f <> NoFile -> In answer yes_words -> delete_file f answer = Some NoFile) /\
  (f <> NoFile -> ~ In answer yes_words -> delete_file f answer = None).
Proof.
  intros A f answer. assert (E : accepted answer = true <-> In answer yes_words).
  { unfold accepted. rewrite existsb_exists. fold yes_words. split.
    - intros (w & I & H). apply same_word in H. now subst.
    - intros I. exists answer. split; auto. now apply same_word. }
  destruct f as [|b]; unfold delete_file.
  - split; [reflexivity|split; [congruence|congruence]].
  - split; [discriminate|]. split; intros _ H.
    + apply E in H. now rewrite H.
    + destruct (accepted answer); [|reflexivity]. elim H. now apply E.
Qed.

(* ------------------------------------------------------------------ *)
(** ** the whole run *)
Lemma appends_all_ok {A} load k (f g : file A) steps : appends load k f steps = (g, None) ->
  exists hist, steps = computed hist.
Proof.
  revert k f. induction steps as [|[n r] t IH]; intros k f H.
  - exists []. reflexivity.
  - cbn in H. destruct r as [s|]; [|discriminate]. destruct (append_df f (load k) n s None false) as [h [e|]]; [discriminate|].
    destruct (IH _ _ H) as [hist ->]. exists ((n, s) :: hist). reflexivity.
Qed.
Lemma mapM_length {A B} (f : A -> result B) l r : mapM f l = Ok r -> length r = length l.
Proof.
  revert r. induction l as [|x l IH]; intros r; cbn.
  - intros H. injection H as <-. reflexivity.
  - destruct (f x); cbn; [|discriminate]. destruct (mapM f l); cbn; [|discriminate]. intros H. injection H as <-. cbn. now rewrite (IH _ eq_refl).
Qed.
Lemma save_one_length c panels lampam distance o pdl ind ls : save_one c panels lampam distance o pdl ind = Ok ls -> length ls = length panels.
Proof.
  unfold save_one. repeat match goal with |- (do x <- ?X; _) = _ -> _ => destruct X; cbn [bind]; [|discriminate] end.
  intros H. apply mapM_length in H. rewrite seq_length in H. exact H.
Qed.
Lemma save_one_table c panels lampam distance o pdl ind ls : panels <> [] -> save_one c panels lampam distance o pdl ind = Ok ls -> table ls <> [].
Proof. intros N H. apply save_one_length in H. destruct ls; [destruct panels; [congruence|discriminate]|discriminate]. Qed.

(** the sheets of the set-up *)
Definition setup_sheet (s : sheet) : bool := match s with SResults | SBest | SOther _ => false | _ => true end.

Lemma computed_app {A} (x y : list (sheet * list (list A))) : computed (x ++ y) = computed x ++ computed y.
Proof. apply map_app. Qed.
Lemma written_app {A} name (x y : list (sheet * list (list A))) : written name (x ++ y) = written name x ++ written name y.
Proof. induction x as [|[n b] x IH]; cbn; [reflexivity|]. now rewrite IH, app_assoc. Qed.
Lemma computed_inv {A} (h : list (sheet * list (list A))) (l : list (sheet * result (list (list A)))) :
  l = computed h -> forall n r, In (n, r) l -> exists s, r = Ok s /\ In (n, s) h.
Proof. intros -> n r I. unfold computed in I. apply in_map_iff in I. destruct I as ([m s] & E & I). injection E as <- <-. exists s. auto. Qed.

Section Run.
Variables (c : cons) (panels : list spanel) (lampam : list Z -> list Q) (distance : list Q -> Q) (n_max : nat).
Variable setup : sheet -> list (list cell).
Hypothesis Hp : panels <> [].
Hypothesis Hs : forall s, setup s <> [].
Let save := save_one c panels lampam distance.

Lemma save_steps_blocks o n pdls nm s : In (nm, Ok s) (save_steps c panels lampam distance o n pdls) -> s <> [].
Proof.
  unfold save_steps. rewrite in_app_iff. intros [I|[I|[]]].
  - apply in_map_iff in I. destruct I as (i & E & _). injection E as _ E. destruct (row pdls i); cbn [bind] in E; [|discriminate].
    destruct (save_one _ _ _ _ _ _ _) eqn:S1; cbn [bind] in E; [|discriminate]. injection E as <-. exact (save_one_table _ _ _ _ _ _ _ _ Hp S1).
  - injection I as _ E. destruct (row pdls _); cbn [bind] in E; [|discriminate].
    destruct (save_one _ _ _ _ _ _ _) eqn:S1; cbn [bind] in E; [|discriminate]. injection E as <-. exact (save_one_table _ _ _ _ _ _ _ _ Hp S1).
Qed.
Lemma setup_blocks nm s : In (nm, Ok s) (setup_steps setup) -> s <> [].
Proof. unfold setup_steps. rewrite in_map_iff. intros (x & E & _). injection E as _ <-. apply Hs. Qed.

(** the tables of the layouts *)
Lemma save_steps_ok o pdls : forall n k hist,
  map (fun i => (SResults, do pdl <- row pdls i; do ls <- save o (Some pdl) i; Ok (table ls))) (seq k n) = computed hist ->
  exists tables, length tables = n /\
    (forall i ls, nth_error tables i = Some ls -> exists pdl, row pdls (k + i) = Ok pdl /\ save o (Some pdl) (k + i)%nat = Ok ls) /\
    hist = map (fun ls => (SResults, table ls)) tables.
Proof.
  induction n as [|n IH]; intros k hist H; cbn in H.
  - destruct hist; [|discriminate]. exists []. split; [reflexivity|]. split; [|reflexivity]. intros [|i] ls; discriminate.
  - destruct hist as [|[nm s] hist]; [discriminate|]. cbn in H. injection H as <- E H.
    destruct (row pdls k) as [pdl|] eqn:R; cbn [bind] in E; [|discriminate]. destruct (save o (Some pdl) k) as [ls|] eqn:S1; cbn [bind] in E; [|discriminate].
    injection E as <-. destruct (IH (S k) hist H) as (tables & L & T & ->). exists (ls :: tables). split; [cbn; now rewrite L|]. split; [|reflexivity].
    intros [|i] x; cbn.
    + intros X. injection X as <-. rewrite Nat.add_0_r. exists pdl. auto.
    + intros X. destruct (T i x X) as (q & Q1 & Q2). rewrite <- Nat.add_succ_comm. exists q. auto.
Qed.

Lemma app_computed (x y : list (sheet * result (list (list cell)))) h : x ++ y = computed h -> exists a b, h = a ++ b /\ x = computed a /\ y = computed b.
Proof.
  revert h. induction x as [|[n r] x IH]; intros h H.
  - exists [], h. auto.
  - destruct h as [|[m s] h]; [discriminate|]. cbn in H. injection H as -> -> H. destruct (IH h H) as (a & b & -> & -> & ->).
    exists ((m, s) :: a), b. auto.
Qed.
Lemma written_results tables name : written name (map (fun ls => (SResults, table ls)) tables) = if sheet_eq_dec SResults name then concat (map table tables) else [].
Proof. induction tables as [|t l IH]; cbn [written map concat]; [now destruct (sheet_eq_dec SResults name)|]. rewrite IH. destruct (sheet_eq_dec SResults name); reflexivity. Qed.

(** *** C90: what the file holds after a complete run *)
Theorem C90_completed : forall f answer load run g,
  (forall i, load i = Loads) ->
  bella_file c panels lampam distance f answer load n_max setup run = (g, Finished) ->
  (f = NoFile \/ In answer yes_words) /\
  exists o pdls tables best, run = Ok (o, pdls) /\
    (* one table per layout, then the table of the best result *)
    length tables = length (w_obj_tab o) /\
    (forall i ls, nth_error tables i = Some ls -> exists pdl, save o (Some pdl) i = Ok ls) /\
    (exists pdl, save o (Some pdl) 0%nat = Ok best) /\
    (* and nothing else than those tables and the set-up, whatever the file held before *)
    (forall s, setup_sheet s = true -> content g s = Some (setup s)) /\
    rows_on g SResults = concat (map table tables) /\
    content g SBest = Some (table best) /\
    (forall k, content g (SOther k) = None).
Proof.
  intros f answer load run g L H. unfold bella_file in H.
  destruct (delete_file f answer) as [f'|] eqn:D; [|discriminate].
  assert (Ef : f' = NoFile /\ (f = NoFile \/ In answer yes_words)).
  { destruct (C90_delete cell f answer) as (D1 & D2 & D3). destruct f as [|b].
    - rewrite D1 in D by reflexivity. injection D as <-. auto.
    - destruct (in_dec (list_eq_dec Z.eq_dec) answer yes_words) as [I|I].
      + rewrite (D2 ltac:(discriminate) I) in D. injection D as <-. auto.
      + rewrite (D3 ltac:(discriminate) I) in D. discriminate. }
  destruct Ef as [-> Hf]. split; [exact Hf|].
  destruct run as [[o pdls]|]; [|discriminate]. set (res := match _ with Ok _ => _ | Err _ => _ end) in H.
  destruct (appends load 0 NoFile (setup_steps setup ++ res)) as [h x] eqn:Ap. injection H as -> Hx. destruct x; [discriminate|]. clear Hx.
  destruct (appends_all_ok _ _ _ _ _ Ap) as [hist Eh]. rewrite Eh in Ap. destruct (app_computed _ _ _ Eh) as (h1 & h2 & -> & E1 & E2).
  unfold res in E2. destruct (mapM (fit n_max) pdls) as [pdls'|]; [|destruct h2 as [|[? ?] ?]; discriminate].
  unfold save_steps in E2. destruct (app_computed _ _ _ E2) as (h3 & h4 & -> & E3 & E4).
  destruct (save_steps_ok _ _ _ _ _ E3) as (tables & LT & T & ->).
  destruct h4 as [|[nm4 s4] [|? ?]]; try discriminate. cbn in E4. injection E4 as <- E4.
  destruct (row pdls' (w_ind_mini o)) as [pb|]; cbn [bind] in E4; [|discriminate]. fold save in E4. destruct (save o (Some pb) 0%nat) as [best|] eqn:SB; cbn [bind] in E4; [|discriminate].
  injection E4 as <-.
  assert (E5 : h1 = map (fun s => (s, setup s)) [SConstraints; SMaterials; SParameters; SObjective; SMultipanel; SPanels]).
  { clear - E1. unfold setup_steps, computed in E1. cbn in E1. destruct h1 as [|[? ?] [|[? ?] [|[? ?] [|[? ?] [|[? ?] [|[? ?] [|? ?]]]]]]]; try discriminate. cbn in E1. injection E1. intros; subst. reflexivity. }
  clear E1. subst h1. clear Eh E2 E3 res.
  assert (B : blocks_ok (map (fun s => (s, setup s)) [SConstraints; SMaterials; SParameters; SObjective; SMultipanel; SPanels] ++ map (fun ls => (SResults, table ls)) tables ++ [(SBest, table best)])).
  { unfold blocks_ok. rewrite Forall_forall. intros [nm s]. rewrite !in_app_iff, !in_map_iff. cbn [snd]. intros [(x & E & _)|[(ls & E & I)|[E|[]]]].
    - injection E as _ <-. apply Hs.
    - injection E as _ <-. apply In_nth_error in I. destruct I as [i I]. destruct (T i ls I) as (pd & _ & S1). unfold save in S1. exact (save_one_table c panels lampam distance o (Some pd) _ ls Hp S1).
    - injection E as _ <-. unfold save in SB. exact (save_one_table c panels lampam distance o (Some pb) _ best Hp SB). }
  assert (F0 : no_empty_sheet (@NoFile cell)) by (intros n s; discriminate).
  destruct (C90_history_partial cell NoFile _ load 0%nat F0 B L) as (g' & R & X & _).
  rewrite Ap in R. injection R as <-.
  assert (W : forall name, rows_on g name = written name (map (fun s => (s, setup s)) [SConstraints; SMaterials; SParameters; SObjective; SMultipanel; SPanels])
     ++ written name (map (fun ls => (SResults, table ls)) tables) ++ written name [(SBest, table best)]).
  { intros name. destruct (X name) as [X1 _]. rewrite X1, !written_app. reflexivity. }
  assert (Some_of : forall name s, In name (map fst (map (fun s => (s, setup s)) [SConstraints; SMaterials; SParameters; SObjective; SMultipanel; SPanels] ++ map (fun ls => (SResults, table ls)) tables ++ [(SBest, table best)])) ->
     rows_on g name = s -> content g name = Some s).
  { intros name s I E. destruct (X name) as [_ X2]. unfold rows_on in E. destruct (content g name); [now subst|]. destruct (proj1 X2 eq_refl) as [_ N]. contradiction. }
  exists o, pdls, tables, best. split; [reflexivity|]. split; [exact LT|]. split; [intros i ls I; destruct (T i ls I) as (pd & _ & S1); now exists pd|].
  split; [now exists pb|]. split; [|split; [|split]].
  - intros s E. apply Some_of.
    + rewrite map_app, in_app_iff. left. destruct s; try discriminate; cbn; tauto.
    + rewrite W, written_results. destruct s; try discriminate; cbn; rewrite ?app_nil_r; reflexivity.
  - rewrite W, written_results. cbn. now rewrite app_nil_r.
  - apply Some_of.
    + rewrite !map_app, !in_app_iff. right. right. now left.
    + rewrite W, written_results. cbn. apply app_nil_r.
  - intros k. destruct (X (SOther k)) as [_ X2]. apply X2. split; [reflexivity|]. rewrite !map_app, !in_app_iff. intros [I|[I|I]].
    + cbn in I. intuition discriminate.
    + apply in_map_iff in I. destruct I as ([? ?] & E & I). apply in_map_iff in I. destruct I as (? & E2 & _). cbn in E. congruence.
    + cbn in I. intuition discriminate.
Qed.

(** *** C90: refusing the deletion leaves the file as it is *)
Theorem C90_interrupted : forall f answer load run,
  f <> NoFile -> ~ In answer yes_words -> bella_file c panels lampam distance f answer load n_max setup run = (f, Interrupted).
Proof. intros f answer load run N I. unfold bella_file. rewrite (proj2 (proj2 (C90_delete cell f answer)) N I). reflexivity. Qed.

(** refuted: an optimisation that fails has already deleted the report of the previous one *)
Theorem C90_failed_run_refuted : forall f answer load e, In answer yes_words ->
  bella_file c panels lampam distance f answer load n_max setup (Err e) = (NoFile, Failed e).
Proof.
  intros f answer load e I. unfold bella_file. destruct f as [|b]; [reflexivity|].
  rewrite (proj1 (proj2 (C90_delete cell (File b) answer))) by (auto; discriminate). reflexivity.
Qed.

(** *** C90: a run that fails leaves no file, or the tables computed before the failure *)
Theorem C90_failed : forall f answer load run g e, (forall i, load i = Loads) ->
  bella_file c panels lampam distance f answer load n_max setup run = (g, Failed e) ->
  (run = Err e /\ g = NoFile) \/
  exists o pdls before, run = Ok (o, pdls) /\ extended NoFile before g /\
    (forall s, setup_sheet s = true -> content g s = Some (setup s)) /\ content g SBest = None.
Proof.
  intros f answer load run g e L H. unfold bella_file in H.
  destruct (delete_file f answer) as [f'|] eqn:D; [|discriminate].
  assert (f' = NoFile) as ->. { destruct f; unfold delete_file in D; [congruence|]. destruct (accepted answer); congruence. }
  destruct run as [[o pdls]|x]; [|injection H as <- <-; auto]. right. set (res := match _ with Ok _ => _ | Err _ => _ end) in H.
  destruct (appends load 0 NoFile (setup_steps setup ++ res)) as [h x] eqn:Ap. injection H as -> Hx. destruct x as [x|]; [|discriminate]. cbn [ends] in Hx. injection Hx as ->.
  assert (B : forall n s, In (n, Ok s) (setup_steps setup ++ res) -> s <> []).
  { intros n s. rewrite in_app_iff. intros [I|I]; [exact (setup_blocks _ _ I)|]. unfold res in I. destruct (mapM (fit n_max) pdls).
    - exact (save_steps_blocks _ _ _ _ _ I).
    - destruct I as [I|[]]. discriminate. }
  assert (F0 : no_empty_sheet (@NoFile cell)) by (intros n s; discriminate).
  destruct (C90_failure cell NoFile g _ load 0%nat e F0 L B Ap) as (before & n & after & E & X & _).
  exists o, pdls, before. split; [reflexivity|]. split; [exact X|].
  assert (P : exists rest, before = map (fun s => (s, setup s)) [SConstraints; SMaterials; SParameters; SObjective; SMultipanel; SPanels] ++ rest /\ res = computed rest ++ (n, Err e) :: after).
  { clear - E. unfold setup_steps in E. cbn [map app] in E.
    do 6 (destruct before as [|[? ?] before]; cbn [computed map app fst snd] in E; [discriminate|]; injection E as <- <- E).
    exists before. split; [reflexivity|exact E]. }
  destruct P as (rest & -> & P).
  assert (Q : Forall (fun q => fst q = SResults) rest).
  { clear - P. unfold res in P. destruct (mapM (fit n_max) pdls) as [pdls'|].
    - unfold save_steps in P. set (m := map _ _) in P. assert (M : Forall (fun q : sheet * result (list (list cell)) => fst q = SResults) m).
      { unfold m. apply Forall_forall. intros q I. apply in_map_iff in I. destruct I as (? & <- & _). reflexivity. }
      clearbody m. revert m M P. induction rest as [|[a b] rest IH]; intros m M P; [constructor|].
      destruct m as [|[a' b'] m].
      + exfalso. apply (f_equal (@length _)) in P. cbn [app computed map] in P. rewrite ?app_length in P. cbn in P. rewrite app_length in P. cbn in P. lia.
      + cbn in P. injection P as -> _ P. inversion M; subst. constructor; [assumption|]. exact (IH m ltac:(assumption) P).
    - destruct rest as [|[? ?] rest]; [constructor|]. discriminate. }
  assert (Wr : forall name, name <> SResults -> written name rest = [] /\ ~ In name (map fst rest)).
  { clear - Q. intros name N. induction rest as [|[a b] rest IH]; cbn; [auto|]. inversion Q as [|? ? Q1 Q2]; subst. cbn in Q1. subst a. destruct (IH Q2) as [I1 I2].
    rewrite I1. destruct (sheet_eq_dec SResults name); [congruence|]. split; [reflexivity|]. intros [J|J]; [congruence|contradiction]. }
  split.
  - intros s E2. destruct (X s) as [X1 X2]. rewrite written_app in X1. assert (N : s <> SResults) by (intros ->; discriminate). destruct (Wr s N) as [W1 W2].
    rewrite W1, app_nil_r in X1. assert (X3 : rows_on g s = setup s) by (rewrite X1; destruct s; try discriminate; cbn; rewrite ?app_nil_r; reflexivity).
    unfold rows_on in X3. destruct (content g s); [now subst|]. exfalso. apply (proj2 (proj1 X2 eq_refl)). rewrite map_app, in_app_iff. left. destruct s; try discriminate; cbn; tauto.
  - destruct (X SBest) as [_ X2]. apply X2. split; [reflexivity|]. rewrite map_app, in_app_iff. intros [I|I]; [cbn in I; intuition discriminate|].
    apply (proj2 (Wr SBest ltac:(discriminate))). exact I.
Qed.
End Run.

(** *** example: two tables on one sheet and one on another *)
Example C90_example : exists g, appends (fun _ => Loads) 0 NoFile (computed [(SResults, [[1]; [2]]); (SBest, [[5; 6]]); (SResults, [[3]])]) = (g, None) /\
  rows_on g SResults = [[1]; [2]; [3]] /\ rows_on g SBest = [[5; 6]] /\ content g SPanels = None /\ delete_file g [110] = None /\ delete_file g [121; 101; 115] = Some NoFile.
Proof. eexists. split; [vm_compute; reflexivity|]. repeat split; reflexivity. Qed.
Print Assumptions C90_history_partial.
Print Assumptions C90_failure.
Print Assumptions C90_other_sheets.
Print Assumptions C90_unreadable.
Print Assumptions C90_os_error_refuted.
Print Assumptions C90_truncate_refuted.
Print Assumptions C90_empty_table_refuted.
Print Assumptions C90_delete.
Print Assumptions C90_completed.
Print Assumptions C90_interrupted.
Print Assumptions C90_failed_run_refuted.
Print Assumptions C90_failed.
