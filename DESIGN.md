# Design: a Rocq/Coq model of BELLA

BELLA (Blended Laminate Layout optimiser) designs multi-panel composite
structures. The code is Python/numpy; the model here is a set of small total
Gallina functions, one per Python function, in the same branch order, with
exceptions as values. Nothing is extracted or run against the code: the tie
between code and model is the citation (file and lines) on each definition.

## 1. Conventions

* A fibre angle is a `Z` in degrees; the numpy value 666 means "unknown ply" and
  -1 in a ply-drop layout or in a stacking sequence table means "dropped", as in
  the code. A stacking sequence is `list Z`, a table is `list (list Z)` (rows).
* Ply counts and indices are `nat`/`Z`.
* Python exceptions are `Err e` in `result A := Ok a | Err e` (or `None` when the
  code has only one failure), and theorems say when they occur.
* Floating point: percentages, lamination parameters, moments, weights and
  objectives are exact rationals `Q` (or `R` where stated). Rounding errors are
  NOT modelled; tolerances present in the code (1e-15 ...) are kept as rational
  constants. Trigonometric values (`cos_sin`) are abstract rationals per angle.
* Random draws (`random.sample`, `random.randint`), the clock (`time.time()`), and
  numerical functions of the missing package `CLA` are oracle arguments; the
  theorems quantify over all oracles.
* Loops become folds or structural recursion; a `while` loop becomes recursion on
  fuel that returns an error value when exhausted, and the theorems exclude it or
  prove that enough fuel exists.

## 2. Layout

* `Base.v`: lists, slices, numpy helpers. `Spec*.v`: short independent
  specifications. files named after the Python modules (section 4):
  definitions only. `*Proofs.v` (and a few companions such as `FlexuralSwap.v`,
  `StripGraph.v`): lemmas. `Properties_*.v`: the theorems, `Print Assumptions`, and
  examples of non-vacuity; short specifications local to a property stand beside it.
* A property that the code violates is stated in full as `..._refuted`, with a
  witness, and the part that holds is proved beside it.

## 3. Plan per property

| id | model | proof |
|----|-------|-------|
| C01 | `is_diso`, `calc_delta_angle` on Z | equivalence with "exists k, abs(a-b+180k) <= delta"; lia |
| C02 | `is_diso_ss`, counters | induction on the stack; rule-1 hole is `_refuted` |
| C03 | `is_contig` chains as coded (n=2..6) | equivalence with "no n+1 equal consecutive plies" |
| C04 | matrix, vector, penalties | counts = number of bad windows; zero iff feasible |
| C05 | `is_balanced`, `calc_penalty_bal` | counting, Q arithmetic |
| C06 | `is_dam_tol` | case analysis |
| C07 | `is_ten_percent_rule` stack branch, penalties | Q arithmetic |
| C08 | partial-stack branch | even case proved, odd case `_refuted` (wrong middle index) |
| C09 | `check_lay_up_rules` | composition; holes refuted |
| C10 | `calc_penalty_spacing_1ss` | list induction |
| C11 | `calc_penalty_spacing` on a strip | composition |
| C12 | `Constraints.__init__` | case analysis over constructor arguments |
| C13 | `ReducedMultiPanel` maps | sorted-unique list theory |
| C14 | reference panel loop | induction on the sorted list |
| C15 | reachability loop with nondeterministic `set.pop` | graph invariant for any pop order |
| C16 | weight aggregation dict | fold invariant |
| C17 | weightings | `_refuted`; what holds is proved |
| C18 | `divide_panels`, thickest | arithmetic + loop invariant |
| C19 | thinner panels loop | invariant, termination measure |
| C20 | `calc_ply_order` | permutation |
| C21 | moments | telescoping sums over Q |
| C22 | incremental lampams | fold = direct sum |
| C23-C26 | format_pdl, pdl_tools | list induction |
| C27,C28 | `randomly_pdl_guide` with oracles | invariant over all draws; C28 `_refuted` |
| C29 | `global_pdl_from_local_pdl` | list reasoning |
| C30 | `Pruning.v` (BELLA/pruning.py) | kept angles = filter by an independent "adding this ply breaks no rule"; holes refuted |
| C31 | `Beam.v` on `Search.v` | invariant over the levels: blended rows, ply counts, recorded lamination parameters; limits of the claim in `Properties_beamlimits.v` |
| C32 | `Search.v` local/global pruning | marked set = the k best entries by (objective, index); counting |
| C33 | `Search.v` loop over layouts | argmin over the completed layouts; early stop refuted |
| C34, C52 | `Repair10.v` | loop invariant on the ply counts; termination measure |
| C35, C53 | `RepairDiso.v` | permutation invariant of the work lists; success implies the guidelines |
| C36 | `Membrane.v`, `Flexural.v` | monotone objective per accepted move; wrong moves refuted |
| C37, C54 | `Redesign.v` | invariant over the steps between thicknesses |
| C38, C57 | `RepairMp.v` | composition of C34-C37 along the three stages |
| C39 | `Objectives.v` | Q arithmetic |
| C40, C42 | `Divers.v` | sorting, broadcasting |
| C41 | `Strip.v` | algebra |
| C43, C45 | `Strip.v`, `Redesign.v` | induction over the steps |
| C44 | `GroupFilters.v` | filter characterisation |
| C46, C47 | `PdlTools.v` | list induction |
| C48, C49 | `Divide.v` | arithmetic over the groups |
| C50 | `Moments.v` | telescoping |
| C51 | `PdlIni.v` on `PdlGroup.v` | C27 + C29 composed over the groups; refuted with a middle ply (`Properties_pdlmiddle.v`) |
| C55, C56 | `Abdalla10.v` | search loop over the integer simplex; distance as minimum over samples |
| C58 | `Panel.v` | case analysis, NaN as a value |
| C59, C60 | `Stiffness.v` | field identities, sign arguments; double loop as minimum |
| C61, C62 | `Stiffness.v` (ipo_oopo.py) | absolute values, zero iff orthotropic |
| C63 | `RepairSs.v` | composition of C34-C36, Abdalla |
| C64 | `Final.v` | argmin over repaired designs, checks on the report; a run whose designs can all be evaluated returns (no check fails on its own values, `Properties_finalreturns.v`) |
| C65-C67 | `SubsetSum.v` | recursion on the table; enumeration order of the bit vectors |
| C68-C70 | `Inputs.v` | exact acceptance conditions; Python values as a sum type |
| C71-C77 | `Layla.v` | arithmetic of the division, sums of moments, best of the outer steps |
| C78-C80 | `LaylaSearch.v` | pruning = filter; leaves = all admissible laminates below the node limits; positions of the groups |
| C81 | `Pipeline.v` | composition of search (C29-C32), repair (C57), evaluation (C64) and selection (C33) for one layout, then for all layouts; outcome classification of the loop over the layouts |
| C84 | `Levels.v`, `Pipeline.v` | level weightings from the cumulated moments (C50); node lamination parameters in [-1, 1] by summing bounds over distinct levels (`LampamBound.v`), hence objectives in [0, 4]; at the last level of a symmetric laminate the weightings are the panel's and the parameters those of the laminate (C22) |
| C82, C83 | `Counters.v` | the counters are compared with the recursive number of violations of the stacks; induction over the levels; windows across a junction |
| C85 | `Structure.v` | folds of max/min over the panels; indices listed by induction; neighbour lists from the boundaries of C11; parity along the sorted ply counts |
| C86 | `SwapD.v` | sums of squares of positions over the two groups, difference of two laminates ply by ply |
| C87 | `PlyCounts.v` | counts as sums over the plies with rounding to half precision; the penalty of a matrix is that of its rows (C05, C07); `Properties_guide.v` adds to C81 the guidelines of the thickest panel before the repair |
| C88 | `LaylaInputs.v` | constructors as checked functions of Python values; acceptance as an iff with the list of valid arguments; weightings from C76 |
| C89 | `LaylaRun.v` | composition of C77 (outer loop), C80 (outer step), C63 (repair), C09 (lay-up check) and C88; repair arbitrary, then as called |
| C90 | `Saved.v` | induction over the history of appends; prefix of the history at a failure; refutations |
| C91 | `Saved.v` | row by row inversion, links to the counts of C02 and C04; refutations for all inputs |
| C92 | `SavedSetup.v` | read after write composed with the constructors (C07, C58, C59); idempotence of the filters through C58; refutations |
| C93 | `ExternalTable.v` | the dictionary after each line (induction on the table from the end), invariant of the loop that removes columns from the last to the first |
| C94 | `Redesign.v` | every step of the two searches can be evaluated (`runs`, an invariant of the candidate tables: which rows are designed, their width, angles and ply counts) and is inherited; totality of the beam search from it; the self-checks from the results of C37 and the shared parameter |
| C95 | SavedParams.v: the sheets Parameters of BELLA and Constraints/Parameters of LAYLA as labelled cells; two sheets that show the same under every label give equal set-ups (numbers up to ==), through the constructors' specifications and a proof that the weightings depend only on the numbers; Properties_givencells.v: every titled cell holds the value the user gave under that title (through the constructors) |
| C96 | `LaylaBroken.v` | the search of `LaylaSearch.v` with a test on the ply counts of every child; invariant: sound node whose counts passed the test; through the groups the counts are the half of the full laminate; arithmetic of the two ceilings |
| C97 | `RepairMp.v` | each of the four repairs of the reference panel answers and keeps the plies (C29, C35, C54, C63), its gate holds, then the two re-design stages answer (C94) and the last check holds (C57) |
| C98 | `Pipeline.v`, `RepairMp.v`, `Final.v` | the designs of the search have the ply counts and angles (C81), so each repair answers (C97) with stacks of the right size for every outcome, so the evaluation and the selection answer (C64_returns) |
| C99 | `Beam.v`, `Pruning.v`, `Pipeline.v` | invariant of the levels: the tables of nodes stay those of a mixed front, every pruning answers on a symmetric laminate, scores stay in the range of the comparison (C84); induction over the levels |
| C100 | `Beam.v`, `Pruning.v`, `Pipeline.v` | below the last level the stack of a node has no long block and starts with +-45 under damage tolerance, so the angle (on the surface: the opposite angle) with a way on passes the pruning: each expansion gives at least one child, the local pruning keeps one, the number of nodes does not shrink during a level; then as C99 |

No property is declared inexpressible; wall-clock time, Excel I/O, plotting and
floating-point rounding are outside the model. The status of every property and
the names of its theorems are in MANIFEST.json.

"Partial" nearly always means: the English property is false of the code. Then the
manifest lists the theorem(s) `Cnn_..._refuted` (a concrete witness, evaluated in the
model, for which the claim fails) and the theorems for the part that does hold. The
suffix `_partial` is used when the theorem's hypotheses cut out inputs.

## 4. What is modelled and what is not

Modelled, function by function (files under /repo/src):

| code | model |
|------|-------|
| BELLA/constraints.py | Constraints.v (constructor, derived attributes) |
| guidelines/{disorientation,contiguity,balance,dam_tol,ten_percent_rule,one_stack}.py, internal_contig2 | Guidelines.v |
| guidelines/{disorientation,contiguity}.py, counters updated ply by ply | Counters.v |
| guidelines/ten_percent_rule.py, ply counts of panels and sublaminates | PlyCounts.v |
| guidelines/ten_percent_rule_Abdalla.py | Guidelines.v (is_ten_percent…), Abdalla10.v (distance) |
| guidelines/{internal_contig,internal_diso_contig,external_contig,external_diso_contig}.py | GroupFilters.v |
| guidelines/ply_drop_spacing.py | Spacing.v, Redesign.v |
| guidelines/ipo_oopo.py, BELLA/materials.py, buckling/buckling.py | Stiffness.v |
| divers/{sorting,arrays}.py; divers/subset_sum.py | Divers.v; SubsetSum.v |
| BELLA/multipanels.py, reduced_multipanels.py | Strip.v; queries: Structure.v |
| BELLA/format_pdl.py; pdl_tools.py; pdl_group.py; pdl_ini.py | Format.v; PdlTools.v; PdlGroup.v; PdlIni.v, Inputs.v |
| BELLA/divide_panels.py; ply_order.py, moments_of_areas.py, lampam_matrix.py | Divide.v; Moments.v |
| BELLA/pruning.py; optimiser_with_one_pdl.py; optimiser.py | Pruning.v; Beam.v, Search.v, Final.v; Search.v; objective of a node: Levels.v; all together: Pipeline.v |
| BELLA/objectives.py, obj_function.py; panels.py; parameters.py | Objectives.v; Panel.v; Inputs.v |
| RELAY/repair_10_bal.py | Repair10.v, Abdalla10.v |
| RELAY/repair_diso_contig*.py, repair_from_*.py | RepairDiso.v |
| RELAY/repair_membrane*.py; repair_flexural*.py | Membrane.v; Flexural.v, SwapD.v |
| RELAY/thick_to_thin.py, thin_to_thick.py | Redesign.v |
| RELAY/repair_reference_panel.py, repair_mp.py; repair_ss.py; repair_tools.py | RepairMp.v; RepairSs.v; Inputs.v |
| LAYLA_V02/{divide_laminate_*,ply_order,moment_of_areas,objectives,targets,parameters (weights),optimiser}.py | Layla.v |
| LAYLA_V02/{pruning,beam_search,outer_step_*}.py | LaylaSearch.v |
| LAYLA_V02/{constraints,parameters}.py, constructors; the run as a whole | LaylaInputs.v; LaylaRun.v |
| divers/excel.py (delete_file, append_df_to_excel), BELLA/{results,save_result}.py | Saved.v |
| BELLA/save_set_up.py (save_constraints, save_objective_function, save_materials, sheet Panels of save_multipanel), reading of the sheets in run_BELLA_from_input_file_*.py | SavedSetup.v |
| BELLA/save_set_up.py (save_parameters_BELLA), LAYLA_V02/save_set_up.py (save_constraints_LAYLA, save_parameters_LAYLA_V02) | SavedParams.v |
| LAYLA_V02/beam_search.py 75-90, 189-255, outer_step_sym.py 60-126 (not_constraints) | LaylaBroken.v |
| FXI-results/format_restults_FXI_SST_1.py and _horseshoe.py, lines reading the table (167-186) | ExternalTable.v |

Not modelled: the sheet Multipanel (never read back), screen output
(pdls_in_excel.py, pretty_print.py), column widths, plotting, scripts/,
results_with_one_pdl.py (a plain record that is not used), divers/edit_multiple_files.py and
find_in_files.py (maintenance scripts). `src/CLA` (calc_lampam, stiffnesses) is not in
the repository: where it is called the model takes an arbitrary function or states the
lamination parameters as sums over plies. Also abstracted: floating-point rounding and
overflow (exact Q / unbounded Z), numpy aliasing except where a finding is about it
(C58), the content of printed messages, and wall-clock limits (oracle).

Randomness and set order are universally quantified oracles, so theorems hold for all
draws and schedules. The programs are sequential: there is no other scheduling.

## 5. Trusted base

Coq's kernel (8.16.1) and the reading of the Python code recorded in the citations, with
the conventions of section 1. Every property theorem is followed by `Print Assumptions`
and all of them answer "Closed under the global context": no axioms are used. (Loading
the library's ssreflect puts the opaque module parameters
`Coq.ssr.ssrunder.Under_rel.*` in the environment that `coqchk -o` prints; no theorem
depends on them.) There are no functors, no module types, no `Admitted`.

## 6. Tests of the theorems against wrong programs

`tools/mutate.py seeded/mutantsN.py` applies each edit to a scratch copy of the model,
rebuilds everything that depends on it, replaces every proof that breaks by `Admitted`
in the copy, and reads off from `Print Assumptions` which property theorems depend on a
broken proof. Every attempt is a line of seeded/LOG.jsonl. Mutants that survived led to
tightened theorems (field `tightened`), for example C69 (independent reading of Python
numbers), C70_objective_value, and those recorded in the log; a few surviving
mutants are equivalent programs and are marked so.

`tools/automut.py` adds generated edits (comparisons, connectives, constants, +-1,
projections, ...) to every definition that no hand-written mutant touches, stops at the first
proof that fails and reports those for which everything still builds; these were looked at one
by one (LOG.jsonl, field `survived`).

## 7. Defects of the code found by proving

Each has a theorem (`_refuted` or an exact characterisation); the list is in order of
the pipeline.

* Guidelines: damage tolerance rule 1 leaves a gap in the disorientation test (C02, C09);
  the middle ply of odd symmetric partial stacks is looked up at a wrong index (C08); with
  the rule of Abdalla the final gate checks nothing of the 10% rule (C09); the distance to
  the region of Abdalla uses a wrong parabola and a too long line (C56).
* Spacing: single-column groups, boundaries without plies, second covering plies (C11).
* Strip: weights keyed by descending IDs are lost (C16); weightings of equally thick
  panels are lost or exchanged (C17); mixed parity steps (C43).
* Beam search: a symmetric panel with no more plies below the mid-plane than the contiguity limit may
  get all its plies in one block (C31_short_contiguity_refuted). Asymmetric laminates: the two plies
  that meet between the bottom and the top part are never compared, the second ply of rule 2 is compared
  with the outermost ply of the other surface, and with an odd number of plies the test of the
  last surface is applied to a ply of the bottom part (rule 1 fails) or raises IndexError
  (disorientation) (C31_asymmetric_*).
* Layouts: the middle column is inverted or raises (C27, C46, C51; with panels of 12 and 13 plies the
  initial layout gives both 13, C51_middle_refuted); the store of imperfect
  layouts overwrites its best entry (C28); the starting ply of groups forgets covering
  plies (C48); group drops are not monotone (C49); the marker -1 clashes with the angle
  -1 degree (C23); the last layout of a file is read twice (C68).
* Search: the middle ply may only be 0 or 90, and when one of them is not among the angles of the
  constraints the search stops on a KeyError (C99_middle_refuted);
* Search: an asymmetric laminate with contiguity never gets candidate angles (C30);
  asymmetric lamination parameters are accumulated in the wrong order (C22) and the search
  ranks complete asymmetric designs wrongly (C84); a run that is
  stopped early or has a failed layout returns a void design (C33); with
  save_success_rate the reported stacks and the reported objective belong to different
  designs (C64).
* Repair: conforming symmetric laminates with a middle ply are wiped (C52); success may be
  reported with unknown plies or broken rules (C35, C63); refinement of flexural
  properties may worsen the objective (C36), among others because positions counted from 0
  are passed where they count from 1 (C86); the in-plane refinement may loop forever or
  fail on a missing name (C36); value tables of the re-design are reversed with respect to
  the layouts (C54), so that its own check may stop it on correct input (C94); the returned layout is the input one (C38); the Abdalla repair may
  not end (C55); repair_ss with an objective always ends in a TypeError (C63).
* Objects: NaN weightings (C58, C76), unchecked moduli and inconsistent density (C59),
  four-parameter buckling factor (C60), unusable penalties (C62), default arguments of the
  objective (C39); a panel that names itself is listed twice among its neighbours (C85);
  ply counts in half precision stop at 2048, and integer initial counts lose the half ply of
  the mid-plane (C87).
* LAYLA's inputs: minima of the 10% rule above 100% in total, contiguity limits 0 and above 6
  and weightings that end as NaN are accepted; switches of the 10% rule are refused although
  the rule is off (C88).
* LAYLA as a whole: `beam_search` gives `True` as fifth positional argument of `repair_ss`, which
  is not the flag `count_obj` but the objective; the objective function is then called with an
  unknown keyword, so no run returns a design. With the 10% rule an attribute of the constraints
  is missing (C89). Besides, outer_step_sym/asym and beam_search import a function that does not exist.
* LAYLA: maximum group size exceeded, single ply (C71); asymmetric tables misaligned
  (C74); overwritten user weighting (C76); pruning (C78); sibling's counts in the balance
  penalty and counts before repair (C79); plies of asymmetric laminates placed on the
  wrong side after an odd group, missing attributes (C80).
* Counters (public, not used by the optimiser): the contiguity counter counts blocks two or
  three times, charges dropped panels, fails at the first ply and at the last one (C83).
* Report file: with several layouts the tables mix the objective of a layout with the stacks of
  the best one, and Best Result shows the objective of the first layout; percentages are taken
  over the width of the stacking sequence table; a run without percentages of the 10% rule, or
  with a layout of one more column than the thickest panel, fails when it saves its results
  (C91); `FileNotFoundError` is rebound to `OSError`, so that a workbook that cannot be opened
  is overwritten; the previous report is deleted before the run (C90).
* Input files: the coefficient on balance, the number of buckling modes, the density per volume
  and the areas are not read back; a panel without neighbours, or a structure whose panels all
  have one neighbour (two panels), is written to a file that cannot be read (the second because
  pandas turns a column of text numbers into numbers); create_input_file_SST.py asks for
  penalties that can only be written with the 10% rule on lamination parameters (C92).
* divers/subset_sum.py: endless loop without solution (C66), missed solutions (C67).
* LAYLA with not_constraints tests the ply counts only before the repair; a drawn minimum of two plies or less makes the outer step fail (with probability 1/5 for every zero minimum); any rule but the 10% rule in not_constraints is ignored silently (C96).
