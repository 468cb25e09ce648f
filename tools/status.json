{
 "C01": [
  "proved",
  "Exact characterisation for all angles in (-90,90]; docstring claim on the missing-ply marker is refuted separately."
 ],
 "C02": [
  "partial",
  "Proved for no rule, rule 2, rule 3 and for both counters; the agreement demanded under damage tolerance rule 1 is false of the code and refuted with a witness."
 ],
 "C03": [
  "proved",
  ""
 ],
 "C04": [
  "proved",
  "Counts are exact for the plies covered by the rule; the disagreement between gate and penalty (outer plies) is recorded as a refuted companion."
 ],
 "C05": [
  "proved",
  ""
 ],
 "C06": [
  "proved",
  ""
 ],
 "C07": [
  "proved",
  ""
 ],
 "C08": [
  "partial",
  "Even symmetric and asymmetric cases proved; odd symmetric case is false of the code (wrong middle index) and refuted in both directions."
 ],
 "C09": [
  "partial",
  "Exact characterisation of the gate proved; the two guidelines it does not enforce (disorientation under damage tolerance rule 1, Abdalla form of the 10% rule) are refuted with witnesses."
 ],
 "C12": [
  "proved",
  "Accepted arguments characterised exactly, consistency of every constructible object; silent loss of requested minima refuted separately."
 ],
 "C10": [
  "proved",
  "Also: the empty line raises ZeroDivisionError."
 ],
 "C11": [
  "partial",
  "Zero iff spaced proved for every guide-based table (table_ok: rectangular, more than one column per group, at least one ply at every boundary); three cases outside it that the code gets wrong are refuted with witnesses."
 ],
 "C40": [
  "proved",
  "Exact for every reference order without repetitions; repetitions raise IndexError (proved)."
 ],
 "C42": [
  "proved",
  "One-dimensional arrays and scalars over exact rationals."
 ],
 "C13": [
  "proved",
  ""
 ],
 "C14": [
  "proved",
  ""
 ],
 "C15": [
  "proved",
  "Independent of the order of set.pop (oracle)."
 ],
 "C16": [
  "partial",
  "Sums and boundaries proved for every structure whose weights are stored under ascending pairs (default weights, user weights keyed by ascending IDs); for weights keyed by descending IDs, which the code accepts, the claim is refuted."
 ],
 "C17": [
  "partial",
  "Holds for structures listed by strictly increasing thickness (proved); refuted in general: weighting is lost whenever two panels are equally thick, and weightings are exchanged for other orders."
 ],
 "C41": [
  "proved",
  ""
 ],
 "C43": [
  "partial",
  "Proved for every strip whose ply counts have one parity (symmetric laminates) and every strip otherwise; mixed parity, which the code accepts when the thickest panel alone is odd, is refuted."
 ],
 "C45": [
  "proved",
  "For weightings with a non-zero total; a zero total is a division by zero in the code."
 ],
 "C23": [
  "partial",
  "proved for every guide, layout and table whose angles differ from the drop mark -1; a guide containing the allowed angle -1 degree is refuted (C23_angle_minus_one_refuted)"
 ],
 "C24": [
  "proved",
  ""
 ],
 "C25": [
  "proved",
  "distinct positions; repeated positions are refuted separately (C25_repeated_positions_refuted)"
 ],
 "C26": [
  "proved",
  ""
 ],
 "C29": [
  "proved",
  "sizes other than n_plies_max (+1) raise, also proved"
 ],
 "C46": [
  "partial",
  "holds for tables without middle ply; refuted for every table of a structure with a middle ply (always raises)"
 ],
 "C47": [
  "proved",
  ""
 ],
 "C18": [
  "partial",
  "division and minimality proved, raises exactly when impossible; forbidden_ply_counts refuted for laminates made of covering plies only (and reads attributes Constraints does not have)"
 ],
 "C19": [
  "proved",
  "for panels with at least the covering plies; a thinner panel gets a negative group (C19_panel_thinner_than_covering_refuted)"
 ],
 "C48": [
  "partial",
  "thinner panels proved; thickest panel refuted (covering plies forgotten)"
 ],
 "C49": [
  "partial",
  "refuted with default group sizes; at most one ply against the order is proved"
 ],
 "C20": [
  "proved",
  "All ply counts."
 ],
 "C21": [
  "proved",
  "Exact rational arithmetic; cos/sin table is a parameter."
 ],
 "C22": [
  "partial",
  "Proved for symmetric laminates (with and without middle ply, any layout row). False for asymmetric laminates: refutation theorem (columns, levels and moments use different orders)."
 ],
 "C50": [
  "proved",
  "Exact rational arithmetic."
 ],
 "C32": [
  "proved",
  "local and global pruning modelled on tables; objectives between the sentinels -6666 and 6666"
 ],
 "C33": [
  "partial",
  "proved for complete runs; refuted in general: a layout without solution or an early stop makes the code return a void design with NaN objective (C33_refuted)"
 ],
 "C28": [
  "partial",
  "proved for one place and for the origin of the returned layouts; refuted for several places (argmin instead of argmax overwrites the best)"
 ],
 "C39": [
  "partial",
  "value formula, sign, monotonicity, zero on target, agreement of the variants with per-panel (or absent) penalties; the agreement is false for the documented default arguments, where the variant raises (C39_variant_defaults_refuted)"
 ],
 "C27": [
  "partial",
  "proved for all draws without a middle ply; with a middle ply in the last group the code raises (C27_middle_ply_raises) or inverts the middle column (C27_middle_ply_inverted_refuted)"
 ],
 "C51": [
  "partial",
  "Symmetric laminates with even panels and asymmetric laminates proved. With a ply in the middle plane the claim is false of the code: a panel with an even number of plies is given the middle ply (C51_middle_refuted)."
 ],
 "C44": [
  "partial",
  "Proved: the first matrix returned by all four filters, and the second one for internal_contig, internal_diso_contig and external_diso_contig, hold exactly the admissible rows in order (n_contig 2 to 6). False of the code, refuted: external_contig returns the second matrix unfiltered, so the rows are not kept in step."
 ],
 "C30": [
  "partial",
  "symmetric laminates exactly characterised (C30_symmetric_partial) incl. damage tolerance; asymmetric disorientation-only proved; refuted: rule 3 with +-45 not allowed (C30_rule3_refuted), short laminates at the last level (C30_short_laminate_refuted), asymmetric + contiguity never returns angles (C30_asymmetric_contig_refuted)"
 ],
 "C31": [
  "partial",
  "Symmetric: all surviving nodes blended, right ply counts, recorded lamination parameters; the guide panel respects the guidelines with at least 3 slots and more slots than the contiguity limit. False of the code with fewer (C31_short_contiguity_refuted: eight plies in a row, the limit being 4). Asymmetric: nodes blended (C31_asymmetric_nodes), each half of the guide panel respects the disorientation rule and, with an even number of plies, rule 1 of damage tolerance holds; false: the plies that meet in the middle, rule 2, rule 1 with an odd number of plies (three _refuted theorems); with an odd number of plies and disorientation the search always raises (C31_asymmetric_odd_raises). Objective values are below the pruning marks."
 ],
 "C34": [
  "proved",
  "For all laminates and all constraint sets (rule on ply counts). Feasible minima = room: the minima fit in the freely placed plies; the theorem C34_without_room_refuted shows the condition is needed. The rule of Abdalla (repair_10_Abdalla_*) is not modelled; percent*n before ceil is exact, not a float."
 ],
 "C52": [
  "partial",
  "Proved for asymmetric laminates and symmetric laminates with an even number of plies; false of the code for symmetric laminates with a middle ply (C52_middle_ply_refuted)."
 ],
 "C35": [
  "partial",
  "Termination, conservation of plies, symmetry and protected plies proved in full for known outer plies; soundness of reported success proved under explicit size conditions; the unconditional claim is false of the code (four refuted theorems: last ply unchecked, centre block, outer block under rule 3, unknown outer ply)."
 ],
 "C53": [
  "partial",
  "Proved for symmetric laminates when the inward repair can succeed; false of the code for protected outer pairs on short laminates and for asymmetric laminates (refuted theorems)."
 ],
 "C36": [
  "partial",
  "In-plane part: C36_membrane_partial (never worse, what is kept, balance, Abdalla distance) for every returned list; it returns without in-plane orthotropy (C36_membrane_no_ipo_stops), need not return with it (refuted: the refused option is not the one crossed out), and never returns without the rule of Abdalla (missing imports). Out-of-plane part: ply counts, symmetry, middle ply kept by every run (C36_flexural_partial), protected plies kept when symmetric or without damage tolerance (refuted otherwise, but kept by a round in an asymmetric laminate whose ply next to the protected ones at the bottom differs: C36_flexural_outer), single-ply shifts never worsen the objective (C36_flexural_shift), disorientation and contiguity kept without a middle ply (C36_flexural_guidelines), contiguity breakable by block exchange with one. Refuted: the objective can worsen (C36_flexural_objective_refuted, whole refinement; block exchange also for a symmetric laminate); n_D2=1 always fails; uniform odd symmetric laminate fails. Angles outside the set raise KeyError; without rules the refinement always answers."
 ],
 "C37": [
  "partial",
  "proved for every structure whose symmetric panels have one parity of ply counts: both stages keep the reference stack, give each panel its ply count, each row is the next thicker one with plies dropped (hence each stack a sublist of the next), mirrored for symmetric laminates, contiguity and the Abdalla 10% rule enforced, balance kept up to one ply (pair), outer plies kept under covering; a failed first stage changes nothing. Refuted: full balance of re-designed panels; a structure whose thickest panel alone has a middle ply; candidates with equal layouts are considered once"
 ],
 "C54": [
  "partial",
  "refuted of the code: the candidates are visited from last to first while their values are appended, so lamination parameters, objective and ply counts of one candidate are paired with the layout of another; the closing check passes as soon as one difference is zero"
 ],
 "C55": [
  "partial",
  "C55_abdalla_repair, C55_no_exception, C55_conforming_unchanged hold for every input; refuted: it need not end (C55_runs_forever, C55_four_plies_refuted: every balanced symmetric 4-ply laminate at 10%), and an inadmissible laminate can be accepted because its reported distance is 0 (C55_inadmissible_returned_refuted); stated for laminates of at most 6666 plies"
 ],
 "C56": [
  "partial",
  "non-negative and defined exactly when the rule is on (C56_distance_defined), 0 on the region (C56_region_distance_0) and for conforming ply shares (C56_ply_shares_distance_0); refuted: 0 for a laminate outside the region (sampled line too long) and more than twice the distance for another (wrong parabola)"
 ],
 "C38": [
  "partial",
  "False of the code: the layout returned is the input layout whatever the repair did (C38_layout_returned), and after a successful repair it is not that of the returned table (C38_layout_refuted); it is after a failure of the second stage (C38_layout_partial)."
 ],
 "C57": [
  "partial",
  "Proved for every successful run (C57_repaired_design, C57_reference_guidelines, C57_own_checks_hold, C57_angles) and every failed run of stage 1 and 2 (C57_failed_repair); after a failure of stage 3 the returned table is not that of the returned stacks (C57_failed_third_stage_refuted). Absence of unknown plies is proved with the balance guideline or without the 10% rule. Assumes the out-of-plane objective stays below 1e10."
 ],
 "C58": [
  "partial",
  "Proved except: with all weightings switched off the filter yields NaN (C58_always_a_number_refuted); weightings of any size are accepted (C58_twelve_weightings_refuted); a panel without target cannot be filtered (C58_default_target_refuted)."
 ],
 "C59": [
  "partial",
  "Identities and positivity proved; non-positive E22 and G12 are accepted (C59_moduli_checked_refuted) and the default densities are inconsistent (C59_density_refuted)."
 ],
 "C60": [
  "partial",
  "Proved for the twelve-parameter form; the four-parameter form gives another factor (C60_four_parameters_refuted) unless the first two parameters are equal."
 ],
 "C61": [
  "proved",
  ""
 ],
 "C62": [
  "partial",
  "Proved without optimiser parameters; with them calc_penalty_ipo_oopo_mp always fails (C62_multi_panel_refuted), and the threshold of calc_penalty_ipo_param is not used (C62_param_refuted)."
 ],
 "C63": [
  "partial",
  "The success guarantees are proved for laminates whose outer plies stay known in the first step and under the size conditions of C35 (C63_repaired_symmetric_partial, C63_repaired_asymmetric_partial); failure and the kinds of plies in full generality. In general the claim is false of the code: a success may leave unknown plies (C63_unknown_ply_refuted), may break damage tolerance (C63_damage_tolerance_refuted), and with an objective a success always ends in a TypeError (C63_objective_refuted)."
 ],
 "C64": [
  "partial",
  "Proved without save_success_rate (C64_selected, C64_repaired, C64_none), the selection returns when the designs can be evaluated (C64_returns), and composed with RELAY (C64_repaired_design). False of the code with save_success_rate when a design fails before the best one: stacks of the failed design are reported with the objective of another (C64_success_rate_refuted); and when all repairs fail with a penalty the run ends with an exception (C64_all_failed_refuted)."
 ],
 "C65": [
  "proved",
  "Proved for all weights and targets. C65_no_solution_refuted shows that the answer of subset_sum_find alone does not tell whether a solution exists (no solution and t = 0 give the same answer)."
 ],
 "C66": [
  "partial",
  "Table and decomposition proved for all non-negative weights and t >= 0. False of the code: without a solution subset_sum_table_to_list never ends instead of returning an empty list (C66_no_solution_refuted)."
 ],
 "C67": [
  "partial",
  "Proved: termination, soundness and no repetition for all values; completeness for strictly ascending values (and s = 0 only with positive values); with duplicates at least one solution is found if there is one. False of the code: with duplicate values (allowed by the documentation) or with s = 0 and a zero value, solutions are missed; n = 0 raises IndexError (C67_*_refuted)."
 ],
 "C68": [
  "partial",
  "The check is proved exact; reading keeps all layouts in order (C68_read_partial). False of the code: the last layout is always returned twice because the finally clause runs after the break (C68_last_layout_twice_refuted), and a file without layouts raises UnboundLocalError (C68_no_layout_refuted)."
 ],
 "C69": [
  "proved",
  ""
 ],
 "C70": [
  "proved",
  ""
 ],
 "C71": [
  "partial",
  "Proved: admissible sizes (without the middle ply), minimal number, exact covering, exception when impossible. False of the code and refuted: the group of the middle ply can exceed the maximum size; a single symmetric ply is not divided (unbound variable)."
 ],
 "C72": [
  "proved",
  "All orders, sizes and divisions."
 ],
 "C73": [
  "proved",
  "Exact rational arithmetic."
 ],
 "C74": [
  "partial",
  "Proved for symmetric laminates; false of the code for asymmetric laminates (table in order of optimisation read at ply positions), refuted by a three-ply laminate."
 ],
 "C75": [
  "proved",
  "Exact rational arithmetic; NaN for all-zero weightings is C75_no_weighting."
 ],
 "C76": [
  "partial",
  "Proved except where false of the code: NaN when all user weightings are switched off, and with the in-plane penalty, standard angles and no out-of-plane requirement the user weighting of component 10 is overwritten (both refuted)."
 ],
 "C77": [
  "proved",
  "The search of one step (outer_step_sym/asym, which import a function missing from the repository), calc_lampam (src/CLA, missing) and check_lay_up_rules are arbitrary functions."
 ],
 "C78": [
  "partial",
  "proved for symmetric laminates with a non-degenerate last group and the outer plies of asymmetric ones; false in general, see the _refuted theorems"
 ],
 "C79": [
  "partial",
  "leaves, best leaf, last group, pruning, exhaustiveness proved; the ranking by own objective is false of the code (C79_balance_refuted, C79_counts_after_repair_refuted)"
 ],
 "C80": [
  "partial",
  "hand-over between groups, stack, objective and positions proved; positions of asymmetric laminates with odd groups and the in-plane orthotropy penalty are refuted"
 ],
 "C81": [
  "partial",
  "C81_reported_design and C81_generated_layouts: every reported design below the failure value 1e10 is delivered as specified and is the best of all layouts; C81_outcome: the only other outcome is a void one; the void one is wrong when a layout meets the targets exactly and layouts are left (C81_early_stop_refuted). The objective of the nodes is the one of the code (C84). Assumes what well_given states: targets and trigonometric values within [-1, 1], normalised weightings, known plies (balance or no 10% rule), save_success_rate off; even ply counts for symmetric laminates generated with create_initial_pdl. calc_lampam is an oracle."
 ],
 "C82": [
  "partial",
  "Proved for symmetric laminates (C82_symmetric) and for asymmetric ones with plies on both sides before the last level (C82_asymmetric_partial); otherwise the last call raises IndexError (C82_one_sided_refuted). Penalties: C82_penalties."
 ],
 "C83": [
  "partial",
  "Exact at the last level (C83_asymmetric_last_partial, C83_symmetric_last_partial with the angle given as a number) and for plies over the top half (C83_asymmetric_top_partial). Under the bottom half blocks are counted two or three times (C83_bottom_counts_partial gives the exact amount when all panels have the ply; C83_bottom_refuted), dropped panels are charged with the previous panel (C83_stale_refuted), the first ply raises (C83_first_panel_unbound) and so does the last one given as an array (C83_last_array_raises)."
 ],
 "C84": [
  "partial",
  "Everything is proved (C84_level_weightings, C84_last_column, C84_node_objective, C84_node_range, C84_score_range, C84_leaf_score_partial) except the last claim for asymmetric laminates, which is false: complete designs are ranked in the wrong order (C84_asymmetric_leaf_refuted)."
 ],
 "C85": [
  "partial",
  "proved except that neighbour lists have no repetition: a panel that names itself is accepted and appears twice in its own list (C85_own_neighbour_refuted)"
 ],
 "C86": [
  "partial",
  "exactness proved for both functions; the last claim is false of the code: repair_flexural passes positions that count from 0 (C86_repair_uses_shifted_positions, C86_zero_based_positions_refuted)"
 ],
 "C87": [
  "partial",
  "counts are exact up to 2048 plies of a direction and stay at 2048 beyond (half precision, C87_large_counts_refuted); the half ply is lost if the initial counts are integers (C87_integers_refuted); the rest is proved. Arithmetic on the counts is exact as with NumPy 1.x, where adding to a Python number promotes to double precision"
 ],
 "C88": [
  "partial",
  "Acceptance is characterised exactly and the stored values are proved for both constructors (C88_constraints_accepted, C88_constraints_hold, C88_parameters, C88_group_sizes, C88_weightings). False of the code: minima that no laminate reaches are accepted (C88_reachable_minima_refuted), contiguity limits 0 and above 6, that the check cannot evaluate, are accepted (C88_contiguity_limit_refuted), weightings that become NaN are accepted (C88_weightings_refuted), and switches of a guideline that is off are refused (C88_switches_refuted)."
 ],
 "C89": [
  "partial",
  "Proved for every repair procedure: what is returned obeys the guidelines (C89_design). False of the code: with the repair as beam_search calls it no run ever returns (C89_returns_refuted: the fifth positional argument makes repair_ss evaluate an objective with an unknown keyword), nor with the 10% rule whatever the repair (C89_ten_percent_refuted: LAYLA's constraints lack an attribute the check reads)."
 ],
 "C90": [
  "partial",
  "Proved for every history of non-empty tables, every failure point and every answer. False of the code: an OSError while opening an existing workbook makes the code overwrite it; a truncated sheet starts with blank rows; after an empty table the next one starts one row too low; a run that fails has already deleted the previous report."
 ],
 "C91": [
  "partial",
  "Rows proved to describe the best design, and to be right for a run with one layout. False of the code: with several layouts the tables pair the objective of a layout with the stacks of the best one, Best Result shows the objective of the first layout, percentages of panels with dropped plies are too small, runs without percentages of the 10% rule (or with a layout of one more column) cannot be saved, and a layout without result makes the reported design a stack of 0 degree plies. The columns on buckling and on the D matrix are not modelled."
 ],
 "C92": [
  "partial",
  "Proved: constraints come back with the same rules and percentages (45 and -45 degrees within 1e-17, exactly by default), materials with all stiffnesses, coefficients other than balance, panels with plies, targets, neighbours and weightings (filtering is idempotent). False of the code and refuted: coefficient on balance and number of modes return to their defaults, density per volume is recomputed, areas are lost, panels without or all with one neighbour cannot be read, the penalty column for the 10% rule cannot be written."
 ],
 "C93": [
  "proved",
  "Model: ExternalTable.v. C93_lines gives the chosen lines, the columns and the stacks; C93_when says exactly when the import works and which exception it raises otherwise; C93_blended the consequences."
 ],
 "C94": [
  "proved",
  "both stages of the re-design return Ok for every well-formed design with a shared lamination parameter; C94_check_fires_refuted shows that without one (asymmetric laminate, angles 20/50/80) the lampam self-check stops the run"
 ],
 "C95": [
  "proved",
  "All four sheets; the time limits of BELLA and the norm of LAYLA's objective, stored unchecked, are left out of the parameters; n_modes of the objective function is not on the sheet (and not among the six coefficients)."
 ],
 "C96": [
  "partial",
  "Before the repair proved (C96_broken_before_repair), and for the delivered laminate if the repair keeps the plies (C96_delivered_partial). The full claim is false: nothing is checked after the repair (C96_delivered_refuted, for a repair that changes plies); a minimum of at most two plies, the default 0 among them, makes the step that draws it fail (C96_small_minimum_refuted); requests to break other rules are ignored (C96_other_rules_refuted)."
 ],
 "C97": [
  "proved",
  "C97_repair_answers: an answer under plain_repair (in-plane refinement and Abdalla off, 0 degrees allowed, even panels with symmetry, damage tolerance of rule 1 at most and satisfied by the given laminate, the surface plies kept by the balance repair, room for the 10% rule) and ready_to_redesign; the values of the stiffness oracle have one parameter shared by all laminates. Outside: C97_in_plane_refinement_refuted (NameError) and C97_damage_tolerance_refuted (the own check of the repair fires)."
 ],
 "C98": [
  "proved",
  "C98_layout_returns for symmetric structures of even panels under the conditions of C97 on the laminates found for the reference panel (plain_repair) and with values of the stiffness oracle sharing one parameter; the penalty oracle is assumed to answer. C98_returned_stacks for any structure and any outcome of the repair (balance or no 10% rule). The examples give a run of two panels whose search finds two designs, and a repaired design of three panels."
 ],
 "C99": [
  "proved",
  "Symmetric structures, any ply-drop layout with their ply counts; with a middle ply, 0 and 90 have to be allowed angles (they are the only candidates for that ply). C99_search_answers: the set-up of the search succeeds and the search returns at least one and at most b_global_final designs, or raises the no-node exception. C99_layout_answers adds the run of the layout (even panels) under C98's conditions on the repair."
 ],
 "C100": [
  "proved",
  "Symmetric structures, all rules of the pruning. C100_search_finds; hypotheses met by C100_example (7 and 11 plies, middle ply) and C100_damtol_example (rule 3, disorientation, contiguity of 2); C100_no_way_on is a structure without a way on (angles -60, 60, disorientation limit 45, contiguity 5) whose search raises."
 ]
}