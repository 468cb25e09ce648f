{
 "claims": [
  {
   "property": "C01",
   "status": "proved",
   "theorems": [
    "C01_is_diso_mod_180",
    "C01_is_diso_symmetric",
    "C01_is_diso_delta_angle",
    "C01_delta_angle_is_distance",
    "C01_signed_delta_angle",
    "C01_missing_ply_refuted"
   ],
   "note": "Exact characterisation for all angles in (-90,90]; docstring claim on the missing-ply marker is refuted separately."
  },
  {
   "property": "C02",
   "status": "partial",
   "theorems": [
    "C02_is_diso_ss_all_pairs",
    "C02_is_diso_ss_inner_pairs",
    "C02_penalty_counts_violations",
    "C02_penalty_mp_counts_violations",
    "C02_no_violation_iff_feasible",
    "C02_rule1_accepts_everything",
    "C02_rule1_refuted"
   ],
   "note": "Proved for no rule, rule 2, rule 3 and for both counters; the agreement demanded under damage tolerance rule 1 is false of the code and refuted with a witness."
  },
  {
   "property": "C03",
   "status": "proved",
   "theorems": [
    "C03_is_contig_iff_no_long_block",
    "C03_other_limits_raise",
    "C03_internal_contig2_iff_no_long_block"
   ],
   "note": ""
  },
  {
   "property": "C04",
   "status": "proved",
   "theorems": [
    "C04_penalty_ss_counts_blocks",
    "C04_penalty_mp_counts_blocks",
    "C04_covered_plies_defined",
    "C04_zero_iff_feasible",
    "C04_contig_vector",
    "C04_gate_and_penalty_disagree_refuted"
   ],
   "note": "Counts are exact for the plies covered by the rule; the disagreement between gate and penalty (outer plies) is recorded as a refuted companion."
  },
  {
   "property": "C05",
   "status": "proved",
   "theorems": [
    "C05_is_balanced_iff",
    "C05_penalty_zero_iff_balanced"
   ],
   "note": ""
  },
  {
   "property": "C06",
   "status": "proved",
   "theorems": [
    "C06_dam_tol_inactive",
    "C06_dam_tol_rule_1",
    "C06_dam_tol_rule_2",
    "C06_dam_tol_rule_3"
   ],
   "note": ""
  },
  {
   "property": "C07",
   "status": "proved",
   "theorems": [
    "C07_ten_percent_stack",
    "C07_penalty_zero_iff_minima_reached",
    "C07_ply_count_penalty_agrees"
   ],
   "note": ""
  },
  {
   "property": "C08",
   "status": "partial",
   "theorems": [
    "C08_even_symmetric_partial",
    "C08_asymmetric_partial",
    "C08_odd_symmetric_refuted",
    "C08_odd_symmetric_false_accept_refuted"
   ],
   "note": "Even symmetric and asymmetric cases proved; odd symmetric case is false of the code (wrong middle index) and refuted in both directions."
  },
  {
   "property": "C09",
   "status": "partial",
   "theorems": [
    "C09_gate_iff",
    "C09_gate_rule1_refuted",
    "C09_gate_abdalla_refuted"
   ],
   "note": "Exact characterisation of the gate proved; the two guidelines it does not enforce (disorientation under damage tolerance rule 1, Abdalla form of the 10% rule) are refuted with witnesses."
  },
  {
   "property": "C10",
   "status": "proved",
   "theorems": [
    "C10_spacing_penalty",
    "C10_drop_positions",
    "C10_empty_line_raises"
   ],
   "note": "Also: the empty line raises ZeroDivisionError."
  },
  {
   "property": "C100",
   "status": "proved",
   "theorems": [
    "C100_search_finds",
    "C100_no_way_on",
    "C100_layout_returns"
   ],
   "note": "Symmetric structures, all rules of the pruning. C100_search_finds; hypotheses met by C100_example (7 and 11 plies, middle ply) and C100_damtol_example (rule 3, disorientation, contiguity of 2); C100_no_way_on is a structure without a way on (angles -60, 60, disorientation limit 45, contiguity 5) whose search raises."
  },
  {
   "property": "C11",
   "status": "partial",
   "theorems": [
    "C11_rule_off",
    "C11_nonnegative",
    "C11_zero_iff_spaced_partial",
    "C11_check_ply_drop_rules_partial",
    "C11_single_ply_group_refuted",
    "C11_no_ply_at_boundary_refuted",
    "C11_second_covering_ply_refuted"
   ],
   "note": "Zero iff spaced proved for every guide-based table (table_ok: rectangular, more than one column per group, at least one ply at every boundary); three cases outside it that the code gets wrong are refuted with witnesses."
  },
  {
   "property": "C12",
   "status": "proved",
   "theorems": [
    "C12_accepted_iff_valid",
    "C12_constraints_consistent",
    "C12_requested_minima_if_balanced",
    "C12_requested_minima_refuted"
   ],
   "note": "Accepted arguments characterised exactly, consistency of every constructible object; silent loss of requested minima refuted separately."
  },
  {
   "property": "C13",
   "status": "proved",
   "theorems": [
    "C13_strip_lists_each_ply_count_once",
    "C13_panels_map_to_their_ply_count",
    "C13_representatives",
    "C13_reduce_after_extend",
    "C13_extend_after_reduce",
    "C13_panel_order_is_irrelevant"
   ],
   "note": ""
  },
  {
   "property": "C14",
   "status": "proved",
   "theorems": [
    "C14_reference_panel",
    "C14_reference_panel_of_structure"
   ],
   "note": ""
  },
  {
   "property": "C15",
   "status": "proved",
   "theorems": [
    "C15_accepted_exactly_when_connected",
    "C15_boundaries_listed_once",
    "C15_independent_of_set_order",
    "C15_rejections"
   ],
   "note": "Independent of the order of set.pop (oracle)."
  },
  {
   "property": "C16",
   "status": "partial",
   "theorems": [
    "C16_strip_weights_are_sums_partial",
    "C16_strip_boundaries_partial",
    "C16_default_weights",
    "C16_user_weights_partial",
    "C16_reversed_keys_refuted",
    "C16_zero_weight_raises"
   ],
   "note": "Sums and boundaries proved for every structure whose weights are stored under ascending pairs (default weights, user weights keyed by ascending IDs); for weights keyed by descending IDs, which the code accepts, the claim is refuted."
  },
  {
   "property": "C17",
   "status": "partial",
   "theorems": [
    "C17_strip_weightings_partial",
    "C17_total_weighting_refuted",
    "C17_swapped_weightings_refuted"
   ],
   "note": "Holds for structures listed by strictly increasing thickness (proved); refuted in general: weighting is lost whenever two panels are equally thick, and weightings are exchanged for other orders."
  },
  {
   "property": "C18",
   "status": "partial",
   "theorems": [
    "C18_division_found",
    "C18_no_division_raises",
    "C18_forbidden_ply_counts_partial",
    "C18_only_covering_plies_refuted"
   ],
   "note": "division and minimality proved, raises exactly when impossible; forbidden_ply_counts refuted for laminates made of covering plies only (and reads attributes Constraints does not have)"
  },
  {
   "property": "C19",
   "status": "proved",
   "theorems": [
    "C19_plies_per_group",
    "C19_panel_thinner_than_covering_refuted"
   ],
   "note": "for panels with at least the covering plies; a thinner panel gets a negative group (C19_panel_thinner_than_covering_refuted)"
  },
  {
   "property": "C20",
   "status": "proved",
   "theorems": [
    "C20_sym_order",
    "C20_asym_every_ply_once",
    "C20_asym_alternating"
   ],
   "note": "All ply counts."
  },
  {
   "property": "C21",
   "status": "proved",
   "theorems": [
    "C21_moments_normalised",
    "C21_moments_signs",
    "C21_positive_moments",
    "C21_one_angle"
   ],
   "note": "Exact rational arithmetic; cos/sin table is a parameter."
  },
  {
   "property": "C22",
   "status": "partial",
   "theorems": [
    "C22_sym_accumulated_lampam_partial",
    "C22_asym_accumulated_lampam_refuted"
   ],
   "note": "Proved for symmetric laminates (with and without middle ply, any layout row). False for asymmetric laminates: refutation theorem (columns, levels and moments use different orders)."
  },
  {
   "property": "C23",
   "status": "partial",
   "theorems": [
    "C23_table_round_trip_partial",
    "C23_table_entries",
    "C23_guide_too_long_raises",
    "C23_nested_layouts_blend",
    "C23_stacks_rebuild_the_table",
    "C23_angle_minus_one_refuted"
   ],
   "note": "proved for every guide, layout and table whose angles differ from the drop mark -1; a guide containing the allowed angle -1 degree is refuted (C23_angle_minus_one_refuted)"
  },
  {
   "property": "C24",
   "status": "proved",
   "theorems": [
    "C24_update_reference_panel",
    "C24_blended_tables_blend"
   ],
   "note": ""
  },
  {
   "property": "C25",
   "status": "proved",
   "theorems": [
    "C25_reference_to_table",
    "C25_table_to_panel",
    "C25_table_to_panel_2",
    "C25_round_trip_any_order",
    "C25_round_trip_ordered",
    "C25_positions_correspond",
    "C25_repeated_positions_refuted"
   ],
   "note": "distinct positions; repeated positions are refuted separately (C25_repeated_positions_refuted)"
  },
  {
   "property": "C26",
   "status": "proved",
   "theorems": [
    "C26_format_ply_drops",
    "C26_position_out_of_range_raises",
    "C26_format_ply_drops2",
    "C26_format_ply_drops2_idempotent"
   ],
   "note": ""
  },
  {
   "property": "C27",
   "status": "partial",
   "theorems": [
    "C27_candidate_partial",
    "C27_layouts_partial",
    "C27_too_many_drops_raises",
    "C27_middle_ply_raises",
    "C27_middle_ply_inverted_refuted"
   ],
   "note": "proved for all draws without a middle ply; with a middle ply in the last group the code raises (C27_middle_ply_raises) or inverts the middle column (C27_middle_ply_inverted_refuted)"
  },
  {
   "property": "C28",
   "status": "partial",
   "theorems": [
    "C28_single_place_partial",
    "C28_returned_layouts",
    "C28_refuted"
   ],
   "note": "proved for one place and for the origin of the returned layouts; refuted for several places (argmin instead of argmax overwrites the best)"
  },
  {
   "property": "C29",
   "status": "proved",
   "theorems": [
    "C29_symmetric",
    "C29_symmetric_middle_ply",
    "C29_asymmetric",
    "C29_wrong_size_raises"
   ],
   "note": "sizes other than n_plies_max (+1) raise, also proved"
  },
  {
   "property": "C30",
   "status": "partial",
   "theorems": [
    "C30_symmetric_partial",
    "C30_asymmetric_diso_partial",
    "C30_asymmetric_contig_refuted",
    "C30_rule3_refuted",
    "C30_short_laminate_refuted"
   ],
   "note": "symmetric laminates exactly characterised (C30_symmetric_partial) incl. damage tolerance; asymmetric disorientation-only proved; refuted: rule 3 with +-45 not allowed (C30_rule3_refuted), short laminates at the last level (C30_short_laminate_refuted), asymmetric + contiguity never returns angles (C30_asymmetric_contig_refuted)"
  },
  {
   "property": "C31",
   "status": "partial",
   "theorems": [
    "C31_nodes_blended_partial",
    "C31_ply_counts_partial",
    "C31_guide_respects_guidelines_partial",
    "C31_asymmetric_nodes",
    "C31_short_contiguity_refuted",
    "C31_asymmetric_odd_raises",
    "C31_asymmetric_parts_partial",
    "C31_asymmetric_damtol_partial",
    "C31_asymmetric_odd_damtol_refuted",
    "C31_asymmetric_rule2_refuted",
    "C31_asymmetric_disorientation_refuted"
   ],
   "note": "Symmetric: all surviving nodes blended, right ply counts, recorded lamination parameters; the guide panel respects the guidelines with at least 3 slots and more slots than the contiguity limit. False of the code with fewer (C31_short_contiguity_refuted: eight plies in a row, the limit being 4). Asymmetric: nodes blended (C31_asymmetric_nodes), each half of the guide panel respects the disorientation rule and, with an even number of plies, rule 1 of damage tolerance holds; false: the plies that meet in the middle, rule 2, rule 1 with an odd number of plies (three _refuted theorems); with an odd number of plies and disorientation the search always raises (C31_asymmetric_odd_raises). Objective values are below the pruning marks."
  },
  {
   "property": "C32",
   "status": "proved",
   "theorems": [
    "C32_local_pruning",
    "C32_global_pruning"
   ],
   "note": "local and global pruning modelled on tables; objectives between the sentinels -6666 and 6666"
  },
  {
   "property": "C33",
   "status": "partial",
   "theorems": [
    "C33_best_of_complete_runs_partial",
    "C33_void_result_when_a_layout_fails",
    "C33_void_result_after_early_stop",
    "C33_refuted"
   ],
   "note": "proved for complete runs; refuted in general: a layout without solution or an early stop makes the code return a void design with NaN objective (C33_refuted)"
  },
  {
   "property": "C34",
   "status": "proved",
   "theorems": [
    "C34_repair",
    "C34_fillable",
    "C34_without_room_refuted"
   ],
   "note": "For all laminates and all constraint sets (rule on ply counts). Feasible minima = room: the minima fit in the freely placed plies; the theorem C34_without_room_refuted shows the condition is needed. The rule of Abdalla (repair_10_Abdalla_*) is not modelled; percent*n before ceil is exact, not a float."
  },
  {
   "property": "C35",
   "status": "partial",
   "theorems": [
    "C35_symmetric_partial",
    "C35_asymmetric_partial",
    "C35_last_ply_unchecked_refuted",
    "C35_centre_block_refuted",
    "C35_outer_block_refuted",
    "C35_unknown_outer_ply_refuted",
    "C35_candidates_from_queue",
    "C35_list_first_success"
   ],
   "note": "Termination, conservation of plies, symmetry and protected plies proved in full for known outer plies; soundness of reported success proved under explicit size conditions; the unconditional claim is false of the code (four refuted theorems: last ply unchecked, centre block, outer block under rule 3, unknown outer ply)."
  },
  {
   "property": "C36",
   "status": "partial",
   "theorems": [
    "C36_flexural_outer",
    "C36_flexural_shift",
    "C36_flexural_shift_guidelines",
    "C36_flexural_shift_total",
    "C36_flexural_one_position_refuted",
    "C36_flexural_swap",
    "C36_flexural_swap_blocks",
    "C36_flexural_swap_total",
    "C36_flexural_uniform_refuted",
    "C36_flexural_partial",
    "C36_flexural_guidelines",
    "C36_flexural_swap_objective_refuted",
    "C36_flexural_swap_objective_symmetric_refuted",
    "C36_flexural_objective_refuted",
    "C36_flexural_outer_refuted",
    "C36_flexural_swap_contig_refuted",
    "C36_flexural_single_panel",
    "C36_membrane_partial",
    "C36_membrane_no_ipo_stops",
    "C36_membrane_ipo_loops",
    "C36_membrane_ipo_stops_refuted",
    "C36_membrane_plain_refuted",
    "C36_flexural_unknown_angle",
    "C36_flexural_plain_total"
   ],
   "note": "In-plane part: C36_membrane_partial (never worse, what is kept, balance, Abdalla distance) for every returned list; it returns without in-plane orthotropy (C36_membrane_no_ipo_stops), need not return with it (refuted: the refused option is not the one crossed out), and never returns without the rule of Abdalla (missing imports). Out-of-plane part: ply counts, symmetry, middle ply kept by every run (C36_flexural_partial), protected plies kept when symmetric or without damage tolerance (refuted otherwise, but kept by a round in an asymmetric laminate whose ply next to the protected ones at the bottom differs: C36_flexural_outer), single-ply shifts never worsen the objective (C36_flexural_shift), disorientation and contiguity kept without a middle ply (C36_flexural_guidelines), contiguity breakable by block exchange with one. Refuted: the objective can worsen (C36_flexural_objective_refuted, whole refinement; block exchange also for a symmetric laminate); n_D2=1 always fails; uniform odd symmetric laminate fails. Angles outside the set raise KeyError; without rules the refinement always answers."
  },
  {
   "property": "C37",
   "status": "partial",
   "theorems": [
    "C37_thick_to_thin_partial",
    "C37_thin_to_thick_partial",
    "C37_redesign_partial",
    "C37_balance_refuted",
    "C37_middle_ply_refuted",
    "C37_equal_layouts_once",
    "C37_final_candidates_differ"
   ],
   "note": "proved for every structure whose symmetric panels have one parity of ply counts: both stages keep the reference stack, give each panel its ply count, each row is the next thicker one with plies dropped (hence each stack a sublist of the next), mirrored for symmetric laminates, contiguity and the Abdalla 10% rule enforced, balance kept up to one ply (pair), outer plies kept under covering; a failed first stage changes nothing. Refuted: full balance of re-designed panels; a structure whose thickest panel alone has a middle ply; candidates with equal layouts are considered once"
  },
  {
   "property": "C38",
   "status": "partial",
   "theorems": [
    "C38_layout_returned",
    "C38_layout_partial",
    "C38_layout_refuted"
   ],
   "note": "False of the code: the layout returned is the input layout whatever the repair did (C38_layout_returned), and after a successful repair it is not that of the returned table (C38_layout_refuted); it is after a failure of the second stage (C38_layout_partial)."
  },
  {
   "property": "C39",
   "status": "partial",
   "theorems": [
    "C39_value",
    "C39_nonnegative",
    "C39_no_penalty",
    "C39_zero_on_target",
    "C39_monotone",
    "C39_one_panel",
    "C39_partially_known",
    "C39_variants_agree",
    "C39_variant_defaults_refuted",
    "C39_coefficients",
    "C39_objective_function"
   ],
   "note": "value formula, sign, monotonicity, zero on target, agreement of the variants with per-panel (or absent) penalties; the agreement is false for the documented default arguments, where the variant raises (C39_variant_defaults_refuted)"
  },
  {
   "property": "C40",
   "status": "proved",
   "theorems": [
    "C40_sortAccording",
    "C40_binary_search",
    "C40_repeated_reference_fails"
   ],
   "note": "Exact for every reference order without repetitions; repetitions raise IndexError (proved)."
  },
  {
   "property": "C41",
   "status": "proved",
   "theorems": [
    "C41_weight_from_table",
    "C41_weight_is_additive",
    "C41_weight_is_sum_of_panels"
   ],
   "note": ""
  },
  {
   "property": "C42",
   "status": "proved",
   "theorems": [
    "C42_max_arrays"
   ],
   "note": "One-dimensional arrays and scalars over exact rationals."
  },
  {
   "property": "C43",
   "status": "partial",
   "theorems": [
    "C43_thick_to_thin_table_partial",
    "C43_thin_to_thick_table_partial",
    "C43_mixed_parity_refuted"
   ],
   "note": "Proved for every strip whose ply counts have one parity (symmetric laminates) and every strip otherwise; mixed parity, which the code accepts when the thickest panel alone is odd, is refuted."
  },
  {
   "property": "C44",
   "status": "partial",
   "theorems": [
    "C44_internal_contig",
    "C44_internal_diso_contig",
    "C44_external_contig_rows_partial",
    "C44_external_contig_second_refuted",
    "C44_external_diso_contig"
   ],
   "note": "Proved: the first matrix returned by all four filters, and the second one for internal_contig, internal_diso_contig and external_diso_contig, hold exactly the admissible rows in order (n_contig 2 to 6). False of the code, refuted: external_contig returns the second matrix unfiltered, so the rows are not kept in step."
  },
  {
   "property": "C45",
   "status": "proved",
   "theorems": [
    "C45_thick_to_thin_weightings",
    "C45_thin_to_thick_weightings"
   ],
   "note": "For weightings with a non-zero total; a zero total is a division by zero in the code."
  },
  {
   "property": "C46",
   "status": "partial",
   "theorems": [
    "C46_symmetric_table_partial",
    "C46_asymmetric_table_partial",
    "C46_middle_ply_always_raises_refuted"
   ],
   "note": "holds for tables without middle ply; refuted for every table of a structure with a middle ply (always raises)"
  },
  {
   "property": "C47",
   "status": "proved",
   "theorems": [
    "C47_spacing_filter",
    "C47_rule_off"
   ],
   "note": ""
  },
  {
   "property": "C48",
   "status": "partial",
   "theorems": [
    "C48_first_plies_symmetric_partial",
    "C48_first_plies_asymmetric_partial",
    "C48_thickest_panel_refuted"
   ],
   "note": "thinner panels proved; thickest panel refuted (covering plies forgotten)"
  },
  {
   "property": "C49",
   "status": "partial",
   "theorems": [
    "C49_group_drops_decrease_by_at_most_one_partial",
    "C49_group_drops_monotone_refuted"
   ],
   "note": "refuted with default group sizes; at most one ply against the order is proved"
  },
  {
   "property": "C50",
   "status": "proved",
   "theorems": [
    "C50_cumulated_moments"
   ],
   "note": "Exact rational arithmetic."
  },
  {
   "property": "C51",
   "status": "partial",
   "theorems": [
    "C51_symmetric_partial",
    "C51_asymmetric_partial",
    "C51_middle_refuted"
   ],
   "note": "Symmetric laminates with even panels and asymmetric laminates proved. With a ply in the middle plane the claim is false of the code: a panel with an even number of plies is given the middle ply (C51_middle_refuted)."
  },
  {
   "property": "C52",
   "status": "partial",
   "theorems": [
    "C52_conforming_unchanged_partial",
    "C52_middle_ply_refuted"
   ],
   "note": "Proved for asymmetric laminates and symmetric laminates with an even number of plies; false of the code for symmetric laminates with a middle ply (C52_middle_ply_refuted)."
  },
  {
   "property": "C53",
   "status": "partial",
   "theorems": [
    "C53_symmetric_unchanged_partial",
    "C53_protected_plies_refuted",
    "C53_asymmetric_refuted",
    "C53_smallest_row"
   ],
   "note": "Proved for symmetric laminates when the inward repair can succeed; false of the code for protected outer pairs on short laminates and for asymmetric laminates (refuted theorems)."
  },
  {
   "property": "C54",
   "status": "partial",
   "theorems": [
    "C54_reported_lampam_refuted",
    "C54_chosen_panel_refuted",
    "C54_ten_percent_refuted"
   ],
   "note": "refuted of the code: the candidates are visited from last to first while their values are appended, so lamination parameters, objective and ply counts of one candidate are paired with the layout of another; the closing check passes as soon as one difference is zero"
  },
  {
   "property": "C55",
   "status": "partial",
   "theorems": [
    "C55_abdalla_repair",
    "C55_no_exception",
    "C55_runs_forever",
    "C55_conforming_unchanged",
    "C55_inadmissible_returned_refuted",
    "C55_four_plies_refuted"
   ],
   "note": "C55_abdalla_repair, C55_no_exception, C55_conforming_unchanged hold for every input; refuted: it need not end (C55_runs_forever, C55_four_plies_refuted: every balanced symmetric 4-ply laminate at 10%), and an inadmissible laminate can be accepted because its reported distance is 0 (C55_inadmissible_returned_refuted); stated for laminates of at most 6666 plies"
  },
  {
   "property": "C56",
   "status": "partial",
   "theorems": [
    "C56_distance_defined",
    "C56_region_distance_0",
    "C56_ply_shares_distance_0",
    "C56_zero_outside_refuted",
    "C56_not_the_distance_refuted"
   ],
   "note": "non-negative and defined exactly when the rule is on (C56_distance_defined), 0 on the region (C56_region_distance_0) and for conforming ply shares (C56_ply_shares_distance_0); refuted: 0 for a laminate outside the region (sampled line too long) and more than twice the distance for another (wrong parabola)"
  },
  {
   "property": "C57",
   "status": "partial",
   "theorems": [
    "C57_angles",
    "C57_repaired_design",
    "C57_reference_guidelines",
    "C57_own_checks_hold",
    "C57_failed_repair",
    "C57_failed_third_stage_refuted"
   ],
   "note": "Proved for every successful run (C57_repaired_design, C57_reference_guidelines, C57_own_checks_hold, C57_angles) and every failed run of stage 1 and 2 (C57_failed_repair); after a failure of stage 3 the returned table is not that of the returned stacks (C57_failed_third_stage_refuted). Absence of unknown plies is proved with the balance guideline or without the 10% rule. Assumes the out-of-plane objective stays below 1e10."
  },
  {
   "property": "C58",
   "status": "partial",
   "theorems": [
    "C58_weightings",
    "C58_defined",
    "C58_always_a_number_refuted",
    "C58_construction",
    "C58_twelve_weightings_refuted",
    "C58_targets",
    "C58_targets_idempotent",
    "C58_default_target_refuted",
    "C58_objective_range",
    "C58_example",
    "C58_weight"
   ],
   "note": "Proved except: with all weightings switched off the filter yields NaN (C58_always_a_number_refuted); weightings of any size are accepted (C58_twelve_weightings_refuted); a panel without target cannot be filtered (C58_default_target_refuted)."
  },
  {
   "property": "C59",
   "status": "partial",
   "theorems": [
    "C59_constants",
    "C59_rotated_ply",
    "C59_laminate",
    "C59_positive",
    "C59_moduli_checked_refuted",
    "C59_density_partial",
    "C59_density_refuted"
   ],
   "note": "Identities and positivity proved; non-positive E22 and G12 are accepted (C59_moduli_checked_refuted) and the default densities are inconsistent (C59_density_refuted)."
  },
  {
   "property": "C60",
   "status": "partial",
   "theorems": [
    "C60_value",
    "C60_more_modes",
    "C60_load_scaling",
    "C60_load_sign",
    "C60_quarter_turn",
    "C60_margin",
    "C60_four_parameters_refuted",
    "C60_four_parameters_partial",
    "C60_example"
   ],
   "note": "Proved for the twelve-parameter form; the four-parameter form gives another factor (C60_four_parameters_refuted) unless the first two parameters are equal."
  },
  {
   "property": "C61",
   "status": "proved",
   "theorems": [
    "C61_laminate",
    "C61_stiffness_parameters",
    "C61_compliance_parameters",
    "C61_flag",
    "C61_general_parameters",
    "C61_twelve",
    "C61_orthotropic",
    "C61_balanced_symmetric",
    "C61_laminate_example",
    "C61_example",
    "C61_compliance_example"
   ],
   "note": ""
  },
  {
   "property": "C62",
   "status": "partial",
   "theorems": [
    "C62_ipo",
    "C62_ipo_rows",
    "C62_multi_panel_partial",
    "C62_multi_panel_refuted",
    "C62_oopo",
    "C62_oopo_rows",
    "C62_param_partial",
    "C62_param_refuted",
    "C62_balanced_not_penalised",
    "C62_example"
   ],
   "note": "Proved without optimiser parameters; with them calc_penalty_ipo_oopo_mp always fails (C62_multi_panel_refuted), and the threshold of calc_penalty_ipo_param is not used (C62_param_refuted)."
  },
  {
   "property": "C63",
   "status": "partial",
   "theorems": [
    "C63_failure",
    "C63_objective_refuted",
    "C63_plies",
    "C63_repaired_symmetric_partial",
    "C63_repaired_asymmetric_partial",
    "C63_unknown_ply_refuted",
    "C63_damage_tolerance_refuted"
   ],
   "note": "The success guarantees are proved for laminates whose outer plies stay known in the first step and under the size conditions of C35 (C63_repaired_symmetric_partial, C63_repaired_asymmetric_partial); failure and the kinds of plies in full generality. In general the claim is false of the code: a success may leave unknown plies (C63_unknown_ply_refuted), may break damage tolerance (C63_damage_tolerance_refuted), and with an objective a success always ends in a TypeError (C63_objective_refuted)."
  },
  {
   "property": "C64",
   "status": "partial",
   "theorems": [
    "C64_selected",
    "C64_success_rate_partial",
    "C64_repaired",
    "C64_none",
    "C64_none_success_rate",
    "C64_success_rate_refuted",
    "C64_all_failed_refuted",
    "C64_repaired_design",
    "C64_returns"
   ],
   "note": "Proved without save_success_rate (C64_selected, C64_repaired, C64_none), the selection returns when the designs can be evaluated (C64_returns), and composed with RELAY (C64_repaired_design). False of the code with save_success_rate when a design fails before the best one: stacks of the failed design are reported with the objective of another (C64_success_rate_refuted); and when all repairs fail with a penalty the run ends with an exception (C64_all_failed_refuted)."
  },
  {
   "property": "C65",
   "status": "proved",
   "theorems": [
    "C65_count",
    "C65_find",
    "C65_no_solution_refuted"
   ],
   "note": "Proved for all weights and targets. C65_no_solution_refuted shows that the answer of subset_sum_find alone does not tell whether a solution exists (no solution and t = 0 give the same answer)."
  },
  {
   "property": "C66",
   "status": "partial",
   "theorems": [
    "C66_table",
    "C66_list",
    "C66_no_solution_refuted"
   ],
   "note": "Table and decomposition proved for all non-negative weights and t >= 0. False of the code: without a solution subset_sum_table_to_list never ends instead of returning an empty list (C66_no_solution_refuted)."
  },
  {
   "property": "C67",
   "status": "partial",
   "theorems": [
    "C67_sound",
    "C67_all_solutions",
    "C67_first_solution_partial",
    "C67_repeated_value_refuted",
    "C67_zero_value_refuted",
    "C67_no_values_refuted"
   ],
   "note": "Proved: termination, soundness and no repetition for all values; completeness for strictly ascending values (and s = 0 only with positive values); with duplicates at least one solution is found if there is one. False of the code: with duplicate values (allowed by the documentation) or with s = 0 and a zero value, solutions are missed; n = 0 raises IndexError (C67_*_refuted)."
  },
  {
   "property": "C68",
   "status": "partial",
   "theorems": [
    "C68_read_partial",
    "C68_last_layout_twice_refuted",
    "C68_no_layout_refuted",
    "C68_check",
    "C68_from_file_partial"
   ],
   "note": "The check is proved exact; reading keeps all layouts in order (C68_read_partial). False of the code: the last layout is always returned twice because the finally clause runs after the break (C68_last_layout_twice_refuted), and a file without layouts raises UnboundLocalError (C68_no_layout_refuted)."
  },
  {
   "property": "C69",
   "status": "proved",
   "theorems": [
    "C69_parameters"
   ],
   "note": ""
  },
  {
   "property": "C70",
   "status": "proved",
   "theorems": [
    "C70_two_plies",
    "C70_one_ply",
    "C70_signed_angle",
    "C70_objective_value",
    "C70_ranking"
   ],
   "note": ""
  },
  {
   "property": "C71",
   "status": "partial",
   "theorems": [
    "C71_division_partial",
    "C71_no_division",
    "C71_maximum_size_refuted",
    "C71_single_ply_refuted"
   ],
   "note": "Proved: admissible sizes (without the middle ply), minimal number, exact covering, exception when impossible. False of the code and refuted: the group of the middle ply can exceed the maximum size; a single symmetric ply is not divided (unbound variable)."
  },
  {
   "property": "C72",
   "status": "proved",
   "theorems": [
    "C72_levels",
    "C72_levels_of_division"
   ],
   "note": "All orders, sizes and divisions."
  },
  {
   "property": "C73",
   "status": "proved",
   "theorems": [
    "C73_moments",
    "C73_normalised"
   ],
   "note": "Exact rational arithmetic."
  },
  {
   "property": "C74",
   "status": "partial",
   "theorems": [
    "C74_assumed_symmetric_partial",
    "C74_assumed_asymmetric_refuted"
   ],
   "note": "Proved for symmetric laminates; false of the code for asymmetric laminates (table in order of optimisation read at ply positions), refuted by a three-ply laminate."
  },
  {
   "property": "C75",
   "status": "proved",
   "theorems": [
    "C75_level_weightings",
    "C75_no_weighting",
    "C75_objective",
    "C75_objective_meaning",
    "C75_targets"
   ],
   "note": "Exact rational arithmetic; NaN for all-zero weightings is C75_no_weighting."
  },
  {
   "property": "C76",
   "status": "partial",
   "theorems": [
    "C76_weightings_partial",
    "C76_defined",
    "C76_user_weighting_lost_refuted",
    "C76_always_a_number_refuted"
   ],
   "note": "Proved except where false of the code: NaN when all user weightings are switched off, and with the in-plane penalty, standard angles and no out-of-plane requirement the user weighting of component 10 is overwritten (both refuted)."
  },
  {
   "property": "C77",
   "status": "proved",
   "theorems": [
    "C77_result",
    "C77_feasible",
    "C77_no_exception",
    "C77_all_nan",
    "C77_reported_lampam"
   ],
   "note": "The search of one step (outer_step_sym/asym, which import a function missing from the repository), calc_lampam (src/CLA, missing) and check_lay_up_rules are arbitrary functions."
  },
  {
   "property": "C78",
   "status": "partial",
   "theorems": [
    "C78_symmetric_partial",
    "C78_group_of_one_refuted",
    "C78_short_group_refuted",
    "C78_middle_ply_refuted",
    "C78_from_allowed",
    "C78_asymmetric_outer",
    "C78_asymmetric_second_ply_refuted",
    "C78_asymmetric_parity_refuted",
    "C78_asymmetric_contig_refuted"
   ],
   "note": "proved for symmetric laminates with a non-degenerate last group and the outer plies of asymmetric ones; false in general, see the _refuted theorems"
  },
  {
   "property": "C79",
   "status": "partial",
   "theorems": [
    "C79_leaves",
    "C79_last_group",
    "C79_objective_partial",
    "C79_exhaustive",
    "C79_local_pruning",
    "C79_global_pruning",
    "C79_balance_refuted",
    "C79_counts_after_repair_refuted",
    "C79_statistics"
   ],
   "note": "leaves, best leaf, last group, pruning, exhaustiveness proved; the ranking by own objective is false of the code (C79_balance_refuted, C79_counts_after_repair_refuted)"
  },
  {
   "property": "C80",
   "status": "partial",
   "theorems": [
    "C80_between_groups",
    "C80_assumed",
    "C80_stack",
    "C80_objective",
    "C80_orthotropy_refuted",
    "C80_symmetric_positions",
    "C80_asymmetric_positions_partial",
    "C80_asymmetric_positions_refuted"
   ],
   "note": "hand-over between groups, stack, objective and positions proved; positions of asymmetric laminates with odd groups and the in-plane orthotropy penalty are refuted"
  },
  {
   "property": "C81",
   "status": "partial",
   "theorems": [
    "C81_search_guidelines",
    "C81_one_layout",
    "C81_outcome",
    "C81_reported_design",
    "C81_generated_layouts",
    "C81_early_stop_refuted"
   ],
   "note": "C81_reported_design and C81_generated_layouts: every reported design below the failure value 1e10 is delivered as specified and is the best of all layouts; C81_outcome: the only other outcome is a void one; the void one is wrong when a layout meets the targets exactly and layouts are left (C81_early_stop_refuted). The objective of the nodes is the one of the code (C84). Assumes what well_given states: targets and trigonometric values within [-1, 1], normalised weightings, known plies (balance or no 10% rule), save_success_rate off; even ply counts for symmetric laminates generated with create_initial_pdl. calc_lampam is an oracle."
  },
  {
   "property": "C82",
   "status": "partial",
   "theorems": [
    "C82_symmetric",
    "C82_asymmetric_partial",
    "C82_one_sided_refuted",
    "C82_penalties"
   ],
   "note": "Proved for symmetric laminates (C82_symmetric) and for asymmetric ones with plies on both sides before the last level (C82_asymmetric_partial); otherwise the last call raises IndexError (C82_one_sided_refuted). Penalties: C82_penalties."
  },
  {
   "property": "C83",
   "status": "partial",
   "theorems": [
    "C83_asymmetric_last_partial",
    "C83_asymmetric_top_partial",
    "C83_symmetric_last_partial",
    "C83_bottom_counts_partial",
    "C83_bottom_refuted",
    "C83_stale_refuted",
    "C83_first_panel_unbound",
    "C83_last_array_raises",
    "C83_number_raises"
   ],
   "note": "Exact at the last level (C83_asymmetric_last_partial, C83_symmetric_last_partial with the angle given as a number) and for plies over the top half (C83_asymmetric_top_partial). Under the bottom half blocks are counted two or three times (C83_bottom_counts_partial gives the exact amount when all panels have the ply; C83_bottom_refuted), dropped panels are charged with the previous panel (C83_stale_refuted), the first ply raises (C83_first_panel_unbound) and so does the last one given as an array (C83_last_array_raises)."
  },
  {
   "property": "C84",
   "status": "partial",
   "theorems": [
    "C84_leaf_score_partial",
    "C84_asymmetric_leaf_refuted",
    "C84_level_weightings",
    "C84_last_column",
    "C84_node_objective",
    "C84_node_range",
    "C84_score_range"
   ],
   "note": "Everything is proved (C84_level_weightings, C84_last_column, C84_node_objective, C84_node_range, C84_score_range, C84_leaf_score_partial) except the last claim for asymmetric laminates, which is false: complete designs are ranked in the wrong order (C84_asymmetric_leaf_refuted)."
  },
  {
   "property": "C85",
   "status": "partial",
   "theorems": [
    "C85_one_thickest_panel",
    "C85_thickest_panels",
    "C85_ply_counts",
    "C85_middle_plies",
    "C85_neighbour_panels",
    "C85_own_neighbour_refuted",
    "C85_middle_compatibility",
    "C85_areas",
    "C85_layla_recommended"
   ],
   "note": "proved except that neighbour lists have no repetition: a panel that names itself is accepted and appears twice in its own list (C85_own_neighbour_refuted)"
  },
  {
   "property": "C86",
   "status": "partial",
   "theorems": [
    "C86_swap_is_exact",
    "C86_blocks",
    "C86_repair_uses_shifted_positions",
    "C86_zero_based_positions_refuted",
    "C86_opposite"
   ],
   "note": "exactness proved for both functions; the last claim is false of the code: repair_flexural passes positions that count from 0 (C86_repair_uses_shifted_positions, C86_zero_based_positions_refuted)"
  },
  {
   "property": "C87",
   "status": "partial",
   "theorems": [
    "C87_ply_counts_partial",
    "C87_unknown_angle",
    "C87_large_counts_refuted",
    "C87_penalty",
    "C87_penalty_abdalla",
    "C87_half_plies",
    "C87_integers_refuted"
   ],
   "note": "counts are exact up to 2048 plies of a direction and stay at 2048 beyond (half precision, C87_large_counts_refuted); the half ply is lost if the initial counts are integers (C87_integers_refuted); the rest is proved. Arithmetic on the counts is exact as with NumPy 1.x, where adding to a Python number promotes to double precision"
  },
  {
   "property": "C88",
   "status": "partial",
   "theorems": [
    "C88_constraints_accepted",
    "C88_constraints_hold",
    "C88_reachable_minima_refuted",
    "C88_contiguity_limit_refuted",
    "C88_parameters",
    "C88_group_sizes",
    "C88_weightings",
    "C88_weightings_refuted",
    "C88_switches_refuted"
   ],
   "note": "Acceptance is characterised exactly and the stored values are proved for both constructors (C88_constraints_accepted, C88_constraints_hold, C88_parameters, C88_group_sizes, C88_weightings). False of the code: minima that no laminate reaches are accepted (C88_reachable_minima_refuted), contiguity limits 0 and above 6, that the check cannot evaluate, are accepted (C88_contiguity_limit_refuted), weightings that become NaN are accepted (C88_weightings_refuted), and switches of a guideline that is off are refused (C88_switches_refuted)."
  },
  {
   "property": "C89",
   "status": "partial",
   "theorems": [
    "C89_design",
    "C89_ten_percent_refuted",
    "C89_returns_refuted",
    "C89_reported_lampam"
   ],
   "note": "Proved for every repair procedure: what is returned obeys the guidelines (C89_design). False of the code: with the repair as beam_search calls it no run ever returns (C89_returns_refuted: the fifth positional argument makes repair_ss evaluate an objective with an unknown keyword), nor with the 10% rule whatever the repair (C89_ten_percent_refuted: LAYLA's constraints lack an attribute the check reads)."
  },
  {
   "property": "C90",
   "status": "partial",
   "theorems": [
    "C90_history_partial",
    "C90_failure",
    "C90_other_sheets",
    "C90_unreadable",
    "C90_os_error_refuted",
    "C90_truncate_refuted",
    "C90_empty_table_refuted",
    "C90_delete",
    "C90_completed",
    "C90_interrupted",
    "C90_failed_run_refuted",
    "C90_failed",
    "C90_startrow"
   ],
   "note": "Proved for every history of non-empty tables, every failure point and every answer. False of the code: an OSError while opening an existing workbook makes the code overwrite it; a truncated sheet starts with blank rows; after an empty table the next one starts one row too low; a run that fails has already deleted the previous report."
  },
  {
   "property": "C91",
   "status": "partial",
   "theorems": [
    "C91_rows",
    "C91_design",
    "C91_layout_table",
    "C91_single_layout_partial",
    "C91_counts",
    "C91_shares",
    "C91_shares_refuted",
    "C91_without_ten_percent_refuted",
    "C91_extra_column_refuted",
    "C91_void_design_refuted",
    "C91_sheets_refuted"
   ],
   "note": "Rows proved to describe the best design, and to be right for a run with one layout. False of the code: with several layouts the tables pair the objective of a layout with the stacks of the best one, Best Result shows the objective of the first layout, percentages of panels with dropped plies are too small, runs without percentages of the 10% rule (or with a layout of one more column) cannot be saved, and a layout without result makes the reported design a stack of 0 degree plies. The columns on buckling and on the D matrix are not modelled."
  },
  {
   "property": "C92",
   "status": "partial",
   "theorems": [
    "C92_constraints",
    "C92_exact_percentages_refuted",
    "C92_objective",
    "C92_material",
    "C92_density_volume_refuted",
    "C92_balance_coefficient_refuted",
    "C92_weightings_stable",
    "C92_panels_partial",
    "C92_panels_unreadable",
    "C92_example",
    "C92_area_refuted",
    "C92_two_panels_refuted",
    "C92_penalty_column",
    "C92_ten_percent_cells"
   ],
   "note": "Proved: constraints come back with the same rules and percentages (45 and -45 degrees within 1e-17, exactly by default), materials with all stiffnesses, coefficients other than balance, panels with plies, targets, neighbours and weightings (filtering is idempotent). False of the code and refuted: coefficient on balance and number of modes return to their defaults, density per volume is recomputed, areas are lost, panels without or all with one neighbour cannot be read, the penalty column for the 10% rule cannot be written."
  },
  {
   "property": "C93",
   "status": "proved",
   "theorems": [
    "C93_lines",
    "C93_when",
    "C93_blended"
   ],
   "note": "Model: ExternalTable.v. C93_lines gives the chosen lines, the columns and the stacks; C93_when says exactly when the import works and which exception it raises otherwise; C93_blended the consequences."
  },
  {
   "property": "C94",
   "status": "proved",
   "theorems": [
    "C94_thick_to_thin",
    "C94_thin_to_thick",
    "C94_redesign_runs",
    "C94_check_fires_refuted"
   ],
   "note": "both stages of the re-design return Ok for every well-formed design with a shared lamination parameter; C94_check_fires_refuted shows that without one (asymmetric laminate, angles 20/50/80) the lampam self-check stops the run"
  },
  {
   "property": "C95",
   "status": "proved",
   "theorems": [
    "C95_bella_parameters_given",
    "C95_layla_constraints_given",
    "C95_layla_parameters_given",
    "C95_broken_minima",
    "C95_bella_parameters",
    "C95_layla_constraints",
    "C95_layla_parameters",
    "C95_bella_constraints",
    "C95_broken_rules",
    "C95_objective"
   ],
   "note": "All four sheets; the time limits of BELLA and the norm of LAYLA's objective, stored unchecked, are left out of the parameters; n_modes of the objective function is not on the sheet (and not among the six coefficients)."
  },
  {
   "property": "C96",
   "status": "partial",
   "theorems": [
    "C96_broken_before_repair",
    "C96_delivered_partial",
    "C96_small_minimum_refuted",
    "C96_other_rules_refuted",
    "C96_symmetric_only",
    "C96_same_search",
    "C96_delivered_refuted"
   ],
   "note": "Before the repair proved (C96_broken_before_repair), and for the delivered laminate if the repair keeps the plies (C96_delivered_partial). The full claim is false: nothing is checked after the repair (C96_delivered_refuted, for a repair that changes plies); a minimum of at most two plies, the default 0 among them, makes the step that draws it fail (C96_small_minimum_refuted); requests to break other rules are ignored (C96_other_rules_refuted)."
  },
  {
   "property": "C97",
   "status": "proved",
   "theorems": [
    "C97_repair_answers",
    "C97_in_plane_refinement_refuted",
    "C97_damage_tolerance_refuted"
   ],
   "note": "C97_repair_answers: an answer under plain_repair (in-plane refinement and Abdalla off, 0 degrees allowed, even panels with symmetry, damage tolerance of rule 1 at most and satisfied by the given laminate, the surface plies kept by the balance repair, room for the 10% rule) and ready_to_redesign; the values of the stiffness oracle have one parameter shared by all laminates. Outside: C97_in_plane_refinement_refuted (NameError) and C97_damage_tolerance_refuted (the own check of the repair fires)."
  },
  {
   "property": "C98",
   "status": "proved",
   "theorems": [
    "C98_returned_stacks",
    "C98_layout_returns",
    "C98_run_returns"
   ],
   "note": "C98_layout_returns for symmetric structures of even panels under the conditions of C97 on the laminates found for the reference panel (plain_repair) and with values of the stiffness oracle sharing one parameter; the penalty oracle is assumed to answer. C98_returned_stacks for any structure and any outcome of the repair (balance or no 10% rule). The examples give a run of two panels whose search finds two designs, and a repaired design of three panels."
  },
  {
   "property": "C99",
   "status": "proved",
   "theorems": [
    "C99_search_answers",
    "C99_layout_answers",
    "C99_middle_refuted"
   ],
   "note": "Symmetric structures, any ply-drop layout with their ply counts; with a middle ply, 0 and 90 have to be allowed angles (they are the only candidates for that ply). C99_search_answers: the set-up of the search succeeds and the search returns at least one and at most b_global_final designs, or raises the no-node exception. C99_layout_answers adds the run of the layout (even panels) under C98's conditions on the repair."
  }
 ]
}