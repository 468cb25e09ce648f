{"id": "C01", "title": "Disorientation test is the angular distance modulo 180 degrees", "statement": "For two fibre angles in (-90, 90] and a limit delta >= 0, is_diso(a, b, delta) returns True exactly when some representative of the two directions (fibre directions repeat every 180 degrees) differ by at most delta; the answer does not depend on the order of the arguments and agrees with calc_delta_angle(a, b) <= delta.", "quantifier": "all pairs of allowed fibre angles and all limits", "why_tests_cant": "the wrap-around cases form an unbounded set of (angle, angle, limit) triples", "anchors": ["src/guidelines/disorientation.py: is_diso", "src/RELAY/repair_tools.py: calc_delta_angle, calc_delta_angle_2"]}
{"id": "C02", "title": "Disorientation of a stack means every adjacent pair (or every interior adjacent pair) is fine", "statement": "is_diso_ss(ss, delta) is True exactly when all adjacent plies of ss pass the pairwise test; with damage tolerance rule 2 or 3 exactly when all adjacent plies of ss without its two outer plies pass; calc_n_penalty_diso_ss counts exactly the failing pairs of the same (possibly trimmed) stack, so the two agree. With damage tolerance rule 1 the boolean check and the counter must agree as well.", "quantifier": "every stacking sequence of every length, every limit, every damage tolerance setting", "why_tests_cant": "stacks have unbounded length; off-by-one errors only show for particular lengths and positions", "anchors": ["src/guidelines/disorientation.py: is_diso_ss, calc_n_penalty_diso_ss, calc_number_violations_diso_mp, calc_penalty_diso_mp_0"]}
{"id": "C03", "title": "Contiguity test rejects exactly the stacks with a too long block of equal plies", "statement": "For n_contig between 2 and 6, is_contig(ss, n_contig) is True exactly when ss has no n_contig + 1 consecutive plies at the same angle; internal_contig2 gives the same verdict when the contiguity rule is active. For other limits larger than 1 that are smaller than the ply count an exception is raised.", "quantifier": "every stacking sequence of every length and every limit", "why_tests_cant": "each limit is a separate hand-written comparison chain; a wrong index only shows on particular stacks", "anchors": ["src/guidelines/contiguity.py: is_contig", "src/guidelines/internal_contig.py: internal_contig2"]}
{"id": "C04", "title": "Contiguity penalty counts violating windows and vanishes exactly on feasible stacks", "statement": "calc_penalty_contig_ss / calc_penalty_contig_mp return, for every panel, the number of windows of n_contig + 1 consecutive plies that are all equal (after removing the outer plies under damage tolerance rule 2 or 3); the value is zero exactly when is_contig accepts that stack; calc_contig_vector flags the same windows.", "quantifier": "every list of stacking sequences and every limit in 2..6", "why_tests_cant": "needs all lengths and all positions of the violating block", "anchors": ["src/guidelines/contiguity.py: calc_matrix_viol_contig, calc_contig_vector, calc_penalty_contig_mp, calc_penalty_contig_ss"]}
{"id": "C05", "title": "Balance test and balance penalty", "statement": "is_balanced(stack) is True exactly when every angle other than 0 and 90 occurs as often as its opposite; for a stack over the allowed angles the ply-count based penalty calc_penalty_bal is never negative and is zero exactly when is_balanced holds.", "quantifier": "every stack over every allowed angle set closed under negation", "why_tests_cant": "quantifies over all stacks and all angle sets", "anchors": ["src/guidelines/balance.py: is_balanced, calc_penalty_bal", "src/BELLA/constraints.py: Constraints.set_fibre_orientations"]}
{"id": "C06", "title": "Damage tolerance test", "statement": "is_dam_tol(stack, constraints) is True exactly when: rule 1 - the first and the last ply are at +45 or -45; rule 2 - the two outer plies on each side are +45/-45 or -45/+45; rule 3 - the two outer plies on each side are each at +45 or -45; and always when the rule is inactive.", "quantifier": "every stack of every length with the outer plies present, every rule", "why_tests_cant": "needs all stacks, incl. short ones where the outer pairs overlap", "anchors": ["src/guidelines/dam_tol.py: is_dam_tol"]}
{"id": "C07", "title": "10% rule test on complete stacks", "statement": "is_ten_percent_rule(constraints, stack=ss) is True exactly when the share of 0, 90, +45, -45 and +-45 plies reaches the required minima (up to the fixed tolerance 1e-15); with equality_0_90 / equality_45_135 the corresponding sums are compared instead; and the penalties calc_penalty_10_ss and calc_penalty_10_pc are non-negative and zero exactly when all minima are met.", "quantifier": "every non-empty stack, every set of minima", "why_tests_cant": "ratio comparisons over all ply counts", "anchors": ["src/guidelines/ten_percent_rule.py: is_ten_percent_rule, calc_penalty_10_ss, calc_penalty_10_pc"]}
{"id": "C08", "title": "10% rule test on partially known symmetric stacks", "statement": "is_ten_percent_rule(constraints, stack, ply_queue) on a symmetric partial stack with unknown plies and a queue gives the same verdict as the test on the completed stack, for even and odd ply counts.", "quantifier": "every symmetric stack, every queue that fills it", "why_tests_cant": "odd ply counts with a middle ply are a corner of an unbounded family", "anchors": ["src/guidelines/ten_percent_rule.py: is_ten_percent_rule"]}
{"id": "C09", "title": "The final manufacturability gate", "statement": "If check_lay_up_rules(ss, constraints) returns normally, then ss satisfies every active guideline: damage tolerance, balance, disorientation of every pair the guideline covers, contiguity and the 10% rule; and it returns normally for every stack that satisfies all of them.", "quantifier": "every stack and every combination of active guidelines and damage tolerance rules", "why_tests_cant": "the combination space of flags and stacks is unbounded", "anchors": ["src/guidelines/one_stack.py: check_lay_up_rules"]}
{"id": "C10", "title": "Ply-drop spacing penalty of one panel line", "statement": "calc_penalty_spacing_1ss(line, min_drop) equals the sum over consecutive dropped plies of the number of continuous plies missing to reach min_drop between them, divided by the line length; it is zero exactly when any two dropped plies are separated by at least min_drop kept plies.", "quantifier": "every non-empty ply-drop line and every min_drop >= 1", "why_tests_cant": "two nested index-scanning loops; needs all lines", "anchors": ["src/guidelines/ply_drop_spacing.py: calc_penalty_spacing_1ss"]}
{"id": "C11", "title": "Ply-drop spacing penalty of a structure", "statement": "calc_penalty_spacing is zero whenever the rule is off, is never negative, and for a guide-based (nested) layout is zero exactly when, for every boundary with a positive weight between two neighbouring thicknesses, the plies dropped at this boundary are at least min_drop apart.", "quantifier": "every nested layout, every set of boundaries and weights", "why_tests_cant": "quantifies over all layouts and panel graphs", "anchors": ["src/guidelines/ply_drop_spacing.py: calc_penalty_spacing", "src/BELLA/reduced_multipanels.py: check_boundary_weights"]}
{"id": "C12", "title": "Constraint objects are consistent by construction", "statement": "Every Constraints object that can be created satisfies: damage tolerance implies covering with 1 (rule 1) or 2 (rules 2, 3) protected plies at least; covering implies at least one protected ply; limits are neutral when a rule is off (delta 180, n_contig 1, zero percentages); only one of the separate and the combined +-45 minima is non-zero; the allowed angles lie in (-90, 90], are sorted, distinct and closed under negation apart from 90; the index tables point at the right angles.", "quantifier": "every combination of constructor arguments", "why_tests_cant": "infinitely many angle sets and percentages", "anchors": ["src/BELLA/constraints.py: Constraints.__init__, set_percentages, set_fibre_orientations"]}
{"id": "C13", "title": "Mapping a structure to its blending strip and back loses nothing", "statement": "The blending strip lists each occurring ply count exactly once in increasing order; every panel is mapped to the strip entry with its own ply count and the representative panel of each entry has that ply count; reducing extended data gives the data back, and extending reduced data gives back any data that only depends on the ply count; the panel order does not change the strip ply counts.", "quantifier": "every list of panels", "why_tests_cant": "quantifies over all multisets of ply counts and panel orders", "anchors": ["src/BELLA/reduced_multipanels.py: ReducedMultiPanel.__init__", "src/BELLA/format_pdl.py: reduce_for_guide_based_blending, extend_after_guide_based_blending"]}
{"id": "C14", "title": "Choice of the reference panel", "statement": "The reference panel of the strip is the thinnest panel that has at least the requested number of plies, the thickest panel if none has, and the thinnest one if the request is below every ply count; the selection always terminates.", "quantifier": "every strip and every requested ply count", "why_tests_cant": "search loop with no explicit bound", "anchors": ["src/BELLA/reduced_multipanels.py: ReducedMultiPanel.__init__"]}
{"id": "C15", "title": "Only connected structures are accepted and their boundaries are listed once", "statement": "MultiPanel accepts a list of panels exactly when their IDs are distinct and every panel can be reached from the first one through declared neighbour relations (in either direction); the boundary list holds every neighbouring pair exactly once, smaller index first.", "quantifier": "every panel graph", "why_tests_cant": "graph reachability over all finite graphs", "anchors": ["src/BELLA/multipanels.py: calc_panel_boundary_dict, identify_neighbour_panels"]}
{"id": "C16", "title": "Boundary weights of the strip", "statement": "The weight of a strip boundary is the sum of the weights of all structure boundaries between the two thicknesses; boundaries between equally thick panels disappear; nothing else changes.", "quantifier": "every structure and weighting", "why_tests_cant": "aggregation over all finite graphs", "anchors": ["src/BELLA/reduced_multipanels.py: check_boundary_weights"]}
{"id": "C17", "title": "Panel weightings of the strip", "statement": "The weighting of a strip panel in the objective is the total weighting of the structure panels it stands for (so no panel of the structure is ignored and none gets the weighting of another thickness).", "quantifier": "every structure and weighting", "why_tests_cant": "depends on the order in which panels are listed, unboundedly many orders", "anchors": ["src/BELLA/reduced_multipanels.py: calc_panel_weigthings"]}
{"id": "C18", "title": "Division of the thickest panel into ply groups", "statement": "When divide_panels returns, the group sizes of the thickest panel are between the minimum and maximum group size, add up to the number of plies to divide, and the number of groups is the smallest possible; it raises exactly when no such division exists; forbidden_ply_counts lists exactly those ply counts that cannot be divided.", "quantifier": "every ply count and group size limits", "why_tests_cant": "all integer triples", "anchors": ["src/BELLA/divide_panels.py: divide_panels, forbidden_ply_counts"]}
{"id": "C19", "title": "Division of the thinner panels into ply groups", "statement": "The ply drops of a thinner panel are spread over the groups so that each group keeps between zero and its full number of plies and the kept plies add up to the plies of the panel; the distribution loop terminates.", "quantifier": "every pair of ply counts and every group division", "why_tests_cant": "while-loop whose termination depends on a floor-sum argument", "anchors": ["src/BELLA/divide_panels.py: divide_panels"]}
{"id": "C20", "title": "Order in which plies are optimised", "statement": "calc_ply_order visits every ply index exactly once (for symmetric laminates every index of the lower half including the middle ply, from the outside inwards; otherwise alternating outer plies from both ends).", "quantifier": "every ply count", "why_tests_cant": "all sizes", "anchors": ["src/BELLA/ply_order.py: calc_ply_order"]}
{"id": "C21", "title": "Ply moments of area are normalised", "statement": "For every panel the ply areas, and the second moments of area, add up to one, the first moments cancel, and the positive moments are non-negative, so that a laminate whose plies share one angle has that angle's lamination parameters; this holds for symmetric laminates with and without middle ply.", "quantifier": "every ply count", "why_tests_cant": "sums over all sizes (telescoping)", "anchors": ["src/BELLA/moments_of_areas.py: calc_mom_of_areas"]}
{"id": "C22", "title": "Incremental lamination parameters equal the direct ones", "statement": "The lamination parameters accumulated ply by ply during the search for a given ply-drop layout equal, in every panel, the lamination parameters computed from the complete stacking sequence of this panel.", "quantifier": "every layout, every assignment of angles", "why_tests_cant": "sum over all plies of all panels", "anchors": ["src/BELLA/lampam_matrix.py: calc_delta_lampams, calc_delta_lampams2", "src/BELLA/moments_of_areas.py: calc_mom_of_areas, calc_mom_of_areas2"]}
{"id": "C23", "title": "Stacking sequence tables round-trip and are blended", "statement": "Building a table from the guide stack and a ply-drop layout and reading the stacks back gives, for each panel, the guide plies that the layout keeps in this panel: the ply count is the number of kept plies, the thickest stack is the guide itself, and each thinner stack is obtained from any thicker one by only removing plies when the layout is nested; no ply angle is invented.", "quantifier": "every guide stack and layout", "why_tests_cant": "all tables", "anchors": ["src/BELLA/format_pdl.py: convert_ss_guide_to_sst, convert_ss_to_sst, convert_sst_to_ss"]}
{"id": "C24", "title": "Updating the reference panel inside a table", "statement": "convert_ss_ref_to_reduced_sst replaces exactly the plies belonging to the reference panel, in all panels that share them, and nothing else: reading back the reference panel gives the new stack, and the table stays a blended one.", "quantifier": "every table, reference panel and new stack of the right size", "why_tests_cant": "all tables", "anchors": ["src/BELLA/format_pdl.py: convert_ss_ref_to_reduced_sst"]}
{"id": "C25", "title": "Ply position conversions are inverse to each other", "statement": "Converting positions of plies in a panel to table positions and back returns the original positions; pos_in_sst_to_pos_in_panel keeps exactly the positions present in the panel; unsorted positions keep their order.", "quantifier": "all layouts and position lists", "why_tests_cant": "index arithmetic over all layouts", "anchors": ["src/BELLA/format_pdl.py: pos_in_ss_ref_to_pos_in_sst, pos_in_sst_to_pos_in_panel, pos_in_sst_to_pos_in_panel_2"]}
{"id": "C26", "title": "Formatting of ply-drop layouts", "statement": "format_ply_drops marks exactly the dropped positions and numbers the others by their position; format_ply_drops2 keeps the same dropped positions and numbers the kept plies 0, 1, 2, ... within each panel.", "quantifier": "all layouts", "why_tests_cant": "all sizes", "anchors": ["src/BELLA/pdl_tools.py: format_ply_drops, format_ply_drops2, ply_drops_at_each_boundaries"]}
{"id": "C27", "title": "Random group ply-drop layouts have the requested drops and are nested, whatever the random draws", "statement": "Every layout returned by randomly_pdl_guide within its time limit drops exactly the requested number of plies in each panel, never drops a protected covering ply, and is guide-based: a ply dropped in a panel is dropped in every thinner panel; no two returned layouts are equal.", "quantifier": "all random draws, all requested drops", "why_tests_cant": "quantifies over every outcome of the random generator", "anchors": ["src/BELLA/pdl_group.py: randomly_pdl_guide"]}
{"id": "C28", "title": "The kept imperfect layouts are the best ones found", "statement": "When the time limit is reached, the non-manufacturable layouts used as fallback are those with the smallest spacing penalties found so far.", "quantifier": "all sequences of generated layouts and penalties", "why_tests_cant": "depends on the whole history of generated layouts", "anchors": ["src/BELLA/pdl_group.py: randomly_pdl_guide", "src/BELLA/pdl_ini.py: create_initial_pdls"]}
{"id": "C29", "title": "Assembling group layouts into a structure layout", "statement": "global_pdl_from_local_pdl keeps in each panel exactly the plies kept by the group layouts, mirrored for symmetric laminates (with a single middle ply when there is one), with the covering plies kept; hence the number of plies of every panel is the required one.", "quantifier": "all group layouts", "why_tests_cant": "all sizes and panel numbers", "anchors": ["src/BELLA/pdl_tools.py: global_pdl_from_local_pdl", "src/BELLA/pdl_ini.py: create_initial_pdl, check_pdls_ini"]}
{"id": "C30", "title": "Pruning during the search keeps exactly the admissible angles", "statement": "pruning_diso_contig_damtol returns exactly those allowed angles for the next ply that do not violate the active damage tolerance, disorientation and contiguity guidelines with the plies already placed in the guide panel, and None exactly when there is none.", "quantifier": "every partial stack, level and constraint set", "why_tests_cant": "all partial stacks", "anchors": ["src/BELLA/pruning.py: pruning_diso_contig_damtol"]}
{"id": "C31", "title": "Beam search nodes stay blended and complete", "statement": "At every level of the search every surviving node assigns to each panel the subsequence, given by the ply-drop layout, of one common angle sequence; after the last level every panel has its required ply count, and the guide panel satisfies the guidelines enforced by the pruning.", "quantifier": "every layout, objective function and node limit; all search histories", "why_tests_cant": "unbounded search histories", "anchors": ["src/BELLA/optimiser_with_one_pdl.py: BELLA_optimiser_one_pdl"]}
{"id": "C32", "title": "Node limits of the beam search", "statement": "Local pruning keeps the best local_node_limit children of a node and global pruning keeps exactly global_node_limit nodes with the smallest objective values; the stacks, lamination parameters and ply counts of a node are kept together.", "quantifier": "all objective values below the sentinel, all node counts", "why_tests_cant": "all orders and ties of objective values", "anchors": ["src/BELLA/optimiser_with_one_pdl.py: BELLA_optimiser_one_pdl"]}
{"id": "C33", "title": "The optimiser returns the best design found", "statement": "BELLA_optimiser returns the design with the smallest objective value among the ply-drop layouts it tried, also when it stops early or when some layouts had no solution.", "quantifier": "all sequences of outcomes of the outer steps", "why_tests_cant": "depends on the history of outer steps", "anchors": ["src/BELLA/optimiser.py: BELLA_optimiser", "src/BELLA/results.py: BELLA_Results"]}
{"id": "C34", "title": "Repair for balance and the 10% rule", "statement": "For feasible minima, repair_10_bal returns a partial stack and a queue such that completing the unknown plies with the queue gives a laminate of the original ply count that is balanced (if required) and reaches all required minima of the 10% rule; known plies are unchanged (apart from the middle ply of an odd symmetric laminate), and symmetric laminates stay symmetric.", "quantifier": "every stacking sequence and every set of feasible minima", "why_tests_cant": "loop invariant over arbitrary stacks", "anchors": ["src/RELAY/repair_10_bal.py: repair_10_bal, repair_10_bal_2, calc_mini_10"]}
{"id": "C35", "title": "Repair for disorientation and contiguity only permutes plies", "statement": "A successful repair_diso_contig fills the unknown plies with the queue and permutes plies: ply counts per angle are those of the known plies plus the queue, symmetric laminates stay symmetric, and the result satisfies the disorientation and contiguity rules.", "quantifier": "every stack and queue", "why_tests_cant": "search over permutations of arbitrary stacks", "anchors": ["src/RELAY/repair_diso_contig.py", "src/RELAY/repair_diso_contig_tools.py", "src/RELAY/repair_from_outside_sym.py", "src/RELAY/repair_from_inside_sym.py"]}
{"id": "C36", "title": "Refinement steps never make the objective worse", "statement": "repair_membrane and repair_flexural return a stack whose in-plane (out-of-plane) objective is not larger than that of the input, and repair_flexural leaves the ply counts per angle unchanged.", "quantifier": "every stack, target and weighting", "why_tests_cant": "greedy loops of unbounded length", "anchors": ["src/RELAY/repair_membrane.py", "src/RELAY/repair_flexural.py"]}
{"id": "C37", "title": "Re-design of the ply drops leaves the reference panel untouched and stays blended", "statement": "Thick-to-thin and thin-to-thick repair keep the reference stack, give each panel its required ply count, and each stack is obtained from the next thicker one by only removing plies.", "quantifier": "every structure and reference stack", "why_tests_cant": "beam search histories", "anchors": ["src/RELAY/thick_to_thin.py", "src/RELAY/thin_to_thick.py"]}
{"id": "C38", "title": "The reported ply-drop layout belongs to the reported design", "statement": "The layout returned by repair_mp (and hence the reported spacing penalty) is the layout of the returned stacking sequence table.", "quantifier": "every repair outcome", "why_tests_cant": "depends on whether the repair changed the layout", "anchors": ["src/RELAY/repair_mp.py: repair_mp", "src/BELLA/optimiser_with_one_pdl.py: BELLA_optimiser_one_pdl"]}
{"id": "C39", "title": "The objective of a structure", "statement": "calc_obj_multi_panel is non-negative for non-negative inputs, equals the weighted sum of the panel objectives when all penalties vanish, does not decrease when a penalty or coefficient increases, is zero when all panels match their targets, and the variant for partially known designs agrees with it when every panel is known.", "quantifier": "all panel objectives, weightings, penalties, coefficients", "why_tests_cant": "real-valued inputs, any number of panels", "anchors": ["src/BELLA/objectives.py: calc_obj_one_panel, calc_obj_multi_panel"]}
{"id": "C40", "title": "sortAccording sorts by the reference order", "statement": "sortAccording(A1, A2) leaves in A1 a permutation of its elements in which the elements occurring in A2 come first, in the order of A2, followed by the others in increasing order; its binary search finds the first occurrence.", "quantifier": "all lists A1, all duplicate-free A2", "why_tests_cant": "all lists and all binary search paths", "anchors": ["src/divers/sorting.py: first, sortAccording"]}
{"id": "C41", "title": "Weight of a structure", "statement": "calc_weight_from_sst gives the same weight as calc_weight for every table with the required ply counts and is additive over panels.", "quantifier": "all structures and tables", "why_tests_cant": "all tables", "anchors": ["src/BELLA/multipanels.py: calc_weight, calc_weight_from_sst, calc_weight_per_panel"]}
{"id": "C42", "title": "Element-wise maximum of arrays", "statement": "max_arrays returns the element-wise maximum, broadcasting arrays of size one, and raises exactly when the sizes differ and neither is one.", "quantifier": "all arrays", "why_tests_cant": "all sizes", "anchors": ["src/divers/arrays.py: max_arrays"]}
{"id": "C43", "title": "Step tables of the ply-drop re-design", "statement": "The tables driving thick-to-thin and thin-to-thick repair visit, ply pair by ply pair, every ply count between the reference panel and the thinnest (thickest) panel once, always name a panel of the strip whose ply count has not been passed, and announce each new panel exactly once.", "quantifier": "every strip and reference panel", "why_tests_cant": "table construction for all strips", "anchors": ["src/BELLA/reduced_multipanels.py: calc_parameters"]}
{"id": "C44", "title": "Group filters keep exactly the admissible sublaminates", "statement": "internal_contig, external_contig and internal_diso_contig (and external_diso_contig) return exactly the input rows that satisfy the active guidelines within the group (and across the joint with the neighbouring plies), in the original order, with the second half rows kept in step.", "quantifier": "every matrix of stacking sequences", "why_tests_cant": "deletion inside index loops; all matrices", "anchors": ["src/guidelines/internal_contig.py: internal_contig", "src/guidelines/external_contig.py: external_contig", "src/guidelines/internal_diso_contig.py: internal_diso_contig", "src/guidelines/external_diso_contig.py: external_diso_contig"]}
{"id": "C45", "title": "Panel weightings while the ply drops are re-designed", "statement": "At every stage of the thick-to-thin (thin-to-thick) re-design the weightings of the panels still to be designed are non-trivially normalised: one entry per remaining panel, they add up to one, the panel being designed also gets the weightings of the panels that currently share its ply drops, and the ratio between the other panels is that of the strip weightings.", "quantifier": "every strip, reference panel and stage", "why_tests_cant": "all numbers of panels and weightings", "anchors": ["src/BELLA/reduced_multipanels.py: calc_panel_weigthings"]}
{"id": "C46", "title": "Ply-drop layout recovered from a stacking sequence table", "statement": "input_pdl_from_sst(sst, ...) returns a layout that drops, in every panel, exactly the columns in which the table has no ply of this panel, for symmetric tables with and without middle ply and for asymmetric tables whose covering plies are kept.", "quantifier": "every table of every size, every number of covering plies", "why_tests_cant": "needs all tables; the column bookkeeping differs between even, odd and asymmetric tables", "anchors": ["src/BELLA/pdl_tools.py: input_pdl_from_sst, global_pdl_from_local_pdl"]}
{"id": "C47", "title": "Filtering layouts by the ply-drop spacing rule", "statement": "ply_drops_rules keeps, in order, exactly the layouts in which at every boundary the dropped plies of both panels (together with the neighbouring groups, not counting plies absent from both panels) are separated by at least min_drop continuous plies; with the rule off all layouts are kept.", "quantifier": "every list of layouts, every set of boundaries, every neighbouring group", "why_tests_cant": "needs all layouts and positions of drops across the group borders", "anchors": ["src/BELLA/pdl_tools.py: ply_drops_rules"]}
{"id": "C48", "title": "Recorded positions of the first plies of the groups", "statement": "After divide_panels the recorded n_first_plies of a panel give, for each group in the order of the laminate, the covering plies plus the plies of the groups before it.", "quantifier": "every panel, group division and number of covering plies, symmetric or not", "why_tests_cant": "running sums over unbounded numbers of groups, interleaved from both ends for asymmetric laminates", "anchors": ["src/BELLA/divide_panels.py: divide_panels"]}
{"id": "C49", "title": "A thinner panel drops at least as many plies in every group", "statement": "After divide_panels, in each group of plies the number of dropped plies does not decrease from a panel to a thinner panel, so that group layouts can be nested (guide-based blending) across all panels.", "quantifier": "every set of panel thicknesses, every group size range", "why_tests_cant": "apportionment anomalies only appear for particular combinations of thicknesses and group sizes", "anchors": ["src/BELLA/divide_panels.py: divide_panels", "src/BELLA/pdl_group.py: randomly_pdl_guide"]}
{"id": "C50", "title": "Cumulated moments used to weight the search levels", "statement": "For every panel and ply-drop layout row keeping as many plies as the panel has, the cumulated areas, first and second moments used to weight the lamination parameters at each search level are between 0 and 1, never decrease along the columns, do not change at a dropped ply, and equal one at the last column.", "quantifier": "every ply count, every layout row", "why_tests_cant": "Ranges over all ply counts and layouts; a floating-point test covers a few rows.", "anchors": ["src/BELLA/moments_of_areas.py: calc_mom_of_areas, calc_mom_of_areas2"]}
{"id": "C51", "title": "Initial ply-drop layouts give every panel its number of plies", "statement": "Whatever the random draws and time-outs, a layout returned by create_initial_pdl for a structure divided by divide_panels has one row per panel of the blending strip and as many columns as the thickest panel has plies; every row keeps exactly as many plies as its panel has; the covering plies are never dropped; a panel with no more plies in any group drops at least the plies the other drops; the rows of symmetric laminates are their own mirror images.", "quantifier": "every structure, group size range, covering rule, symmetric or not, every sequence of random draws", "why_tests_cant": "The layouts are random and the structures unbounded; the property composes the division, the drawing and the assembling of the groups.", "anchors": ["src/BELLA/pdl_ini.py: create_initial_pdl", "src/BELLA/multipanels.py: calc_ply_drops", "src/BELLA/divide_panels.py: divide_panels", "src/BELLA/pdl_group.py: randomly_pdl_guide", "src/BELLA/pdl_tools.py: global_pdl_from_local_pdl"]}
{"id": "C52", "title": "Conforming laminates are left alone by the repair for balance and the 10% rule", "statement": "A laminate that is already balanced (when balance is required) and already has the required share of every direction is returned by repair_10_bal unchanged, with an empty ply queue. Known to fail for symmetric laminates with a middle ply (the angle of the middle ply is not counted): a conforming laminate of seven plies is wiped out and more plies are queued than there are unknown plies.", "quantifier": "every constraint set accepted by the constructor (without the rule of Abdalla), every laminate of every length", "why_tests_cant": "loop invariant over the remaining plies and the queue for arbitrary laminates", "anchors": ["src/RELAY/repair_10_bal.py: repair_10_bal_2, calc_mini_10"]}
{"id": "C53", "title": "Laminates that satisfy the rules are not rearranged by the repair", "statement": "repair_diso_contig returns a complete laminate that already satisfies the disorientation and contiguity rules unchanged and reports success, and among the acceptable arrangements of the last group of plies it chooses the lexicographically first, i.e. the one nearest to the input order.", "quantifier": "every complete conforming laminate, symmetric or not", "why_tests_cant": "the choice is among factorially many arrangements of arbitrary laminates", "anchors": ["src/RELAY/repair_diso_contig.py", "src/RELAY/repair_diso_contig_tools.py", "src/RELAY/repair_from_outside_sym.py", "src/RELAY/repair_from_outside_asym.py", "src/RELAY/repair_from_inside_sym.py"]}
{"id": "C54", "title": "Each candidate of the re-design is judged on its own values", "statement": "In thick-to-thin repair the lamination parameters reported for a re-designed panel are those of its stacking sequence, the panel chosen is the one with the smallest objective among the candidates, and when the 10% rule is active it holds for the re-designed panels.", "quantifier": "every structure, reference stack, target and set of guidelines", "why_tests_cant": "the pairing of candidates with their values depends on the whole history of the beam search", "anchors": ["src/RELAY/thick_to_thin.py: repair_thick_to_thin", "src/RELAY/thin_to_thick.py: repair_thin_to_thick"]}
{"id": "C55", "title": "Repair for the 10% rule of Abdalla", "statement": "With the lamination-parameter form of the 10% rule, a laminate returned by repair_10_bal (completed in any way with its ply queue) has the number of plies it was given, stays symmetric, is balanced when balance is required, lies within 1e-10 of the admissible region as measured by calc_distance_Abdalla, keeps the protected outer plies, and is returned unchanged when it already conforms; the repair never fails with an exception and it ends.", "quantifier": "every constraint set accepted by the constructor with the rule of Abdalla, every laminate, every trigonometric table", "why_tests_cant": "unbounded loop over exchanges of plies for arbitrary laminates", "anchors": ["src/RELAY/repair_10_bal.py: repair_10_bal, repair_10_Abdalla_ipo, repair_10_Abdalla_no_ipo, calc_dist_10_options_1, calc_dist_10_options_3"]}
{"id": "C56", "title": "Distance to the region of the 10% rule of Abdalla", "statement": "calc_distance_Abdalla is a distance to the admissible region: it is never negative, it is 0 for every point of the region, in particular for every laminate with the required share of plies at 0, 90, 45 and -45, it is positive outside the region, and it is not larger than the distance to any point of the region (up to the sampling of the boundary).", "quantifier": "every constraint set with the rule of Abdalla, every pair of lamination parameters, every number of samples of at least two", "why_tests_cant": "the inputs are a continuum, the boundary is sampled", "anchors": ["src/guidelines/ten_percent_rule_Abdalla.py: calc_distance_Abdalla, calc_distance_2_points"]}
{"id": "C57", "title": "A repaired multi-panel design is blended, complete and lawful", "statement": "When repair_mp reports success, the returned table is blended (each panel is the next thicker one with plies dropped at the same positions), each panel has exactly its required number of plies, symmetric designs stay symmetric, the reference panel passes every lay-up check, no unknown ply (666) is left in it, the other panels satisfy the guidelines enforced by the re-design, and none of the internal consistency checks of repair_mp raises; when a stage fails, the returned stacks, table and stage number describe the same design.", "quantifier": "every strip, layout, initial design, set of guidelines, target and search limits", "why_tests_cant": "the repair chains eight search procedures whose intermediate designs depend on all inputs", "anchors": ["src/RELAY/repair_mp.py: repair_mp", "src/RELAY/repair_reference_panel.py: repair_reference_panel"]}
{"id": "C58", "title": "Panel definition and the filtering of weightings and targets", "statement": "Building a Panel from valid arguments gives a panel with at least one ply, a middle ply exactly when the design is symmetric and the ply count odd (with as many plies below as above it), a non-negative area (length_x times length_y when both are given) and weighting, and twelve non-negative lamination-parameter weightings. Filtering the weightings for a set of guidelines always yields numbers that are non-negative, sum to one, keep the proportions of the weightings still in use and are null for the parameters the guidelines make null; filtering the targets clears exactly the parameters the guidelines make null, whatever arrays the panels share, and filtering twice changes nothing. With such weightings the objective of a panel lies between 0 and 4.", "quantifier": "every panel definition, set of guidelines, weighting vector and sharing of target arrays", "why_tests_cant": "weightings are real vectors and arrays may be shared in any way", "anchors": ["src/BELLA/panels.py: Panel, Panel.filter_lampam_weightings, Panel.filter_target_lampams", "src/BELLA/multipanels.py: MultiPanel.filter_lampam_weightings, MultiPanel.filter_target_lampams"]}
{"id": "C59", "title": "The material object holds the plane-stress constants of the ply", "statement": "Material rejects non-positive moduli and thickness; nu21 satisfies reciprocity, the reduced stiffnesses and the five invariants satisfy the identities of classical laminate theory: for every fibre angle and every laminate the stiffnesses computed from the invariants and the lamination parameters are those obtained by rotating the plies, they are positive definite for a physical material, and the area and volume densities are consistent (area density = volume density times ply thickness).", "quantifier": "every set of moduli, Poisson ratio, density and thickness, every angle, every laminate", "why_tests_cant": "identities over continuous parameters and laminates of any length", "anchors": ["src/BELLA/materials.py: Material"]}
{"id": "C60", "title": "Buckling factor is the classical one and behaves as a load factor", "statement": "For a physical material, buckling_factor returns the smallest classical buckling factor over the modes considered: it is positive, attained by a mode, does not increase with the number of modes, is inversely proportional to the load, independent of the sign of the loads, unchanged when plate, loads and laminate are turned by a quarter, and equal whether the twelve lamination parameters or only the four out-of-plane ones are passed; the margin is non-negative exactly when the factor is at least one.", "quantifier": "every laminate, ply count, material, plate size, load and number of modes", "why_tests_cant": "continuous parameters and unbounded number of modes", "anchors": ["src/buckling/buckling.py: buckling_factor, buckling_factor_m_n, buckling_margin"]}
{"id": "C61", "title": "In-plane orthotropy parameters", "statement": "The twelve in-plane orthotropy parameters are the six ratios of shear-extension to other membrane stiffnesses followed by the same six ratios of membrane compliances (those of the uncoupled laminate when it is symmetric, of the full ABD matrix otherwise); the symmetry flag makes no difference for a laminate without coupling; the first six vanish exactly when the third and fourth lamination parameters do, and all twelve vanish for symmetric laminates with null third and fourth parameters.", "quantifier": "every material and lamination-parameter vector for which the ratios are defined", "why_tests_cant": "algebraic identities over continuous parameters", "anchors": ["src/guidelines/ipo_oopo.py: ipo_param_1_12, ipo_param_1_6, ipo_param_7_12"]}
{"id": "C62", "title": "Orthotropy penalties", "statement": "The penalties for in-plane and out-of-plane orthotropy are non-negative, are computed panel by panel, scale with the accumulated area, are null when the guideline is not asked for, and vanish exactly for orthotropic laminates, in particular for every balanced stacking sequence; they can be computed with or without optimiser parameters, and the penalty on the orthotropy parameters only counts values above the threshold.", "quantifier": "every lamination-parameter table, set of guidelines, weights and stacking sequence", "why_tests_cant": "continuous parameters and stacks of any length", "anchors": ["src/guidelines/ipo_oopo.py: calc_penalty_ipo, calc_penalty_ipo_oopo_mp, calc_penalty_oopo_ss, calc_penalty_ipo_param"]}
{"id": "C63", "title": "Repair of a single laminate (repair_ss)", "statement": "repair_ss applied to a laminate of allowed angles either reports failure and returns that laminate unchanged (with the objective 1e10 when an objective is asked for), or reports success and returns a laminate of the same length with only allowed angles, symmetric when asked, balanced, satisfying the 10% rule, the disorientation rule and the contiguity rule, with the plies protected by damage tolerance kept.", "quantifier": "all rules accepted by Constraints, all laminates (symmetric when the rules ask for it), all lamination parameter targets, weightings and repair parameters", "why_tests_cant": "success depends on the order of the plies through four repair steps, each a search; no finite set of laminates covers it", "anchors": ["src/RELAY/repair_ss.py:repair_ss", "src/RELAY/repair_10_bal.py", "src/RELAY/repair_diso_contig.py", "src/RELAY/repair_flexural.py"]}
{"id": "C64", "title": "The reported design is the best repaired one and the report is its own", "statement": "At the end of the search, each design of the last level is assembled into full stacks (mirrored, sharing the middle ply when the panel has one), repaired and valued: 1e10 if the repair fails, otherwise the penalised objective of its repaired stacks. The reported stacks, table, ply-drop layout, lamination parameters, objectives and penalties all belong to the same design, the first with the least value; a reported value below 1e10 means that the repair succeeded; the numbers of designs that passed each repair step are counted exactly; nothing is reported only if there is no design.", "quantifier": "all sets of panels, all designs of the last level, all repair functions, penalty functions and objective parameters, both settings of save_success_rate", "why_tests_cant": "The misalignment between the filtered and unfiltered tables depends on which of the designs fail; a test sees one pattern of failures at a time.", "anchors": ["src/BELLA/optimiser_with_one_pdl.py:BELLA_optimiser_one_pdl lines 372-669", "src/BELLA/objectives.py:calc_obj_multi_panel"]}
{"id": "C65", "title": "Counting and finding subsets with a given sum is exact", "statement": "subset_sum_count(n, w, t) returns exactly the number of the 2^n subsets of the weights whose sum is t (t and the weights may be any integers, zero and negative included, and equal weights at different positions count separately); subset_sum_find(n, w, t) returns a subset with the sum t whenever one exists and the empty subset otherwise; both end.", "quantifier": "all lists of integer weights and all integer targets", "why_tests_cant": "The number of subsets is exponential in the number of weights and the walk over them relies on a carry rule that must visit each of them once.", "anchors": ["src/divers/subset_sum.py:subset_sum_count", "src/divers/subset_sum.py:subset_sum_find", "src/divers/subset_sum.py:subset_next"]}
{"id": "C66", "title": "The subset-sum table marks exactly the reachable sums and yields a decomposition", "statement": "subset_sum_table(t, n, w) returns t + 1 entries; for 1 <= i <= t the entry i is not zero exactly if some of the weights, each used at most once, add up to i, and it is then one of the weights, at most i; subset_sum_table_to_list(t, table) returns weights of the list, each position used at most once, with the sum t, together with their number, and an empty list if there is no solution.", "quantifier": "all lists of non-negative weights and all targets t >= 0", "why_tests_cant": "The claim that no weight is used twice is an invariant over the whole history of table updates, for every order of weights.", "anchors": ["src/divers/subset_sum.py:subset_sum_table", "src/divers/subset_sum.py:subset_sum_table_to_list"]}
{"id": "C67", "title": "Repeated calls of subset_sum_next list every solution exactly once", "statement": "Starting with more = False and passing the outputs of each call to the next one, subset_sum_next(s, n, v, more, u, t) ends for all values, returns only 0/1 vectors u that select values with the sum s, never the same vector twice, and, for non-negative values in ascending order (duplicates allowed), all of them.", "quantifier": "all lists of values, all target sums, the whole history of calls", "why_tests_cant": "The search prunes parts of the 2^n vectors: whether a solution is in a pruned part depends on all the values at once, and the state is carried from call to call.", "anchors": ["src/divers/subset_sum.py:subset_sum_next", "src/divers/subset_sum.py:backup_one"]}
{"id": "C68", "title": "Initial ply-drop layouts are read from a file as they are and only if they fit", "statement": "read_pdls_excel(filename) returns the layouts of the sheets pdl1, pdl2, ... of the file, each once and in order, and an empty list if there are none; check_pdls_ini(multipanel, pdls_ini) returns without exception exactly if every layout has one row per panel of the blending strip and each row has as many plies (entries other than -1) as the panel; so a run started from a file searches the layouts of the file.", "quantifier": "all files (numbers of sheets and tables), all blending strips", "why_tests_cant": "The number of sheets is unbounded and the end of the loop goes through an exception handler whose finally clause runs after the break.", "anchors": ["src/BELLA/pdl_ini.py:read_pdls_excel", "src/BELLA/pdl_ini.py:check_pdls_ini", "src/BELLA/optimiser.py:BELLA_optimiser"]}
{"id": "C69", "title": "Optimiser parameters are accepted exactly when valid and stored as given", "statement": "Parameters(constraints, ...) succeeds exactly if the group sizes are integers with 1 <= group_size_min <= group_size_max, every node limit and n_ini_ply_drops is an integer of at least 1, n_D1, n_D2 and n_D3 are integers, p_A is a number between 0 and 100, the two switches are booleans and n_plies_ref_panel is a number; the object then holds exactly the values given.", "quantifier": "all combinations of argument values of any type", "why_tests_cant": "Eighteen arguments with independent checks: each accepted combination must be valid, which no finite set of calls shows.", "anchors": ["src/BELLA/parameters.py:Parameters"]}
{"id": "C70", "title": "Ply distances and signed angles used to rank repairs", "statement": "For plies i, j of a laminate of n plies calc_distanciation(i, n, j) is 2/n times the difference of the depths of the two plies below the nearer surface: between 0 and 1, symmetric, unchanged by mirroring a ply, zero exactly for the same ply or its mirror image; calc_distanciation(i, n) is the normalised distance from the middle surface to the outer face of the ply; calc_delta_angle_2(a, b) is congruent to b - a modulo 180, lies in ]-90, 90] and its absolute value is calc_delta_angle(a, b); with non-negative coefficients objective_repair grows with the angle difference and with the distance and decreases with the balance status.", "quantifier": "all ply counts and positions, all pairs of angles in [-90, 90], all coefficients", "why_tests_cant": "Odd and even laminates and both halves are treated by different branches; the claim is about all of them.", "anchors": ["src/RELAY/repair_tools.py:calc_distanciation", "src/RELAY/repair_tools.py:calc_delta_angle_2", "src/RELAY/repair_tools.py:objective_repair"]}
{"id": "C71", "title": "LAYLA divides a laminate into as few groups of admissible sizes as possible", "statement": "divide_laminate_sym / divide_laminate_asym return, whenever the plies to be chosen (half of them for symmetric laminates) can be divided into groups of at least group_size_min and at most group_size_max[step] plies, such a division with the smallest possible number of groups; the middle ply of a symmetric laminate is given to the last group; the groups and the positions returned for them cover each ply exactly once; if there is no such division an exception is raised.", "quantifier": "all ply counts, group size ranges and outer steps, symmetric or not", "why_tests_cant": "minimality is over all divisions of arbitrary laminates; tests only look at a few ply counts", "anchors": ["src/LAYLA_V02/divide_laminate_sym.py: divide_laminate_sym", "src/LAYLA_V02/divide_laminate_asym.py: divide_laminate_asym"]}
{"id": "C72", "title": "LAYLA gives each ply to exactly one group of the search", "statement": "calc_levels returns for each group as many plies as the group has, in the order of optimisation; together the groups contain every ply of the lower half (symmetric) or of the laminate exactly once; group sizes that need more plies than there are raise IndexError. The division of a laminate always fits.", "quantifier": "all orders of plies, all group sizes, all laminates and divisions", "why_tests_cant": "partition property over unbounded sizes", "anchors": ["src/LAYLA_V02/ply_order.py: calc_levels, calc_ply_order"]}
{"id": "C73", "title": "Moments of areas used by LAYLA to weight the levels of the search", "statement": "calc_mom_of_areas gives for each ply, in the order of optimisation, the area, first and second moment of the ply between its interfaces (of its lower half for the middle ply); the cumulated moments after a ply are the total share of the plies determined so far, strictly positive, never decreasing, at most one and one at the end; the moments of a group are the total share of its plies and add up to one over the groups.", "quantifier": "all ply counts and group sizes that fit, symmetric or not", "why_tests_cant": "sums over unbounded numbers of plies with different treatment of the last ply; a floating-point test covers a few sizes", "anchors": ["src/LAYLA_V02/moment_of_areas.py: calc_mom_of_areas"]}
{"id": "C74", "title": "Assumed lamination parameters of the groups describe the previous best stack", "statement": "After an outer step of LAYLA, the lamination parameters assumed for each group are the contributions of the plies of the group (and of their mirror images for symmetric laminates) in the best stack found, so that together they are the lamination parameters of this stack.", "quantifier": "all stacks of the allowed angles, all partitions into groups, all trigonometric tables, symmetric or not", "why_tests_cant": "The table is indexed by the order of optimisation and read at ply positions: only a general proof shows that (or where) the two agree.", "anchors": ["src/LAYLA_V02/optimiser.py: LAYLA_optimiser"]}
{"id": "C75", "title": "Weightings of the levels, objective and targets of LAYLA", "statement": "With twelve non-negative weightings that are not all zero, at every level of the search the weightings are non-negative, add up to one, are proportional to the weighting of the laminate times the share of the plies known so far in the corresponding moment, and are zero exactly where the weighting of the laminate is. objectives accepts the types 1 and 2 only and returns the weighted sum of absolute or squared differences: non-negative, zero exactly when all lamination parameters with a positive weighting are on target; calc_obj_multi_ss with non-negative penalties and coefficients never decreases it and keeps a positive one exactly when all penalties vanish. filter_target_lampams sets exactly the components of the strictly enforced guidelines to zero and a second call changes nothing.", "quantifier": "all laminates, weightings, lamination parameters, penalties and guidelines", "why_tests_cant": "continuous inputs and unbounded ply counts", "anchors": ["src/LAYLA_V02/optimiser.py: LAYLA_optimiser", "src/LAYLA_V02/objectives.py: objectives, calc_obj_multi_ss", "src/LAYLA_V02/targets.py: Targets.filter_target_lampams"]}
{"id": "C76", "title": "Weightings of LAYLA respect the sensitivities of the user and the guidelines", "statement": "weights_calculation raises exactly if all products of sensitivities and switches are zero; otherwise it returns the normalised user weightings and the weightings used: twelve non-negative numbers adding up to one, proportional to those of the user for all components that the guidelines do not switch off, zero for the components switched off, except for the penalised orthotropy components, which get the penalty coefficient times the mean of the weightings in use.", "quantifier": "all sensitivities, switches, coefficients and guidelines", "why_tests_cant": "five independent switches and continuous sensitivities", "anchors": ["src/LAYLA_V02/parameters.py: Parameters.weights_calculation"]}
{"id": "C77", "title": "LAYLA returns the best of the outer steps, and it is feasible", "statement": "If LAYLA_optimiser returns, the stack returned is the result of one of the outer steps performed, the first with the smallest objective; it passes the lay-up checks, has the required number of plies and its lamination parameters are within 1e-10 of those of the stack; each step k searches the division given by group_size_max[k] with the assumptions drawn from the previous stack; the loop ends before n_outer_step steps exactly when a step repeats the previous stack or reaches an objective below 1e-10. It returns whenever every division exists and every search returns a feasible stack of allowed angles with the first objective being a number, and raises if all objectives are NaN.", "quantifier": "all search procedures for a step (results and NaN objectives included), all targets, group sizes, numbers of outer steps", "why_tests_cant": "the outcome depends on the whole history of outer steps, whose search is arbitrary", "anchors": ["src/LAYLA_V02/optimiser.py: LAYLA_optimiser"]}
{"id": "C78", "title": "Pruning of the single-laminate search keeps exactly the admissible angles", "statement": "In the search for a single laminate (LAYLA), given the plies already placed outside and inside the current group, pruning the angles of the next ply returns exactly those allowed angles that can follow: +-45 for the outer plies under damage tolerance, the right second ply under rules 2 and 3, disorientation and contiguity with the plies placed, contiguity through the mid-surface for the innermost ply of a symmetric laminate, 0 or 90 for a middle ply. False in general: a first group of one ply raises IndexError under rule 2, a short last group lets contiguity violations through, the middle ply may get an angle that is not allowed, and asymmetric laminates are compared with the wrong neighbours or raise an exception.", "quantifier": "every set of design rules, laminate size, group division, stack placed so far and set of allowed angles", "why_tests_cant": "which angles are dropped depends on the combination of rules, the position in the laminate and the length of the current group; tests check a handful of stacks, while the failures appear only for particular lengths of the last group", "anchors": ["src/LAYLA_V02/pruning.py:pruning_contig_diso", "src/LAYLA_V02/beam_search.py:beam_search"]}
{"id": "C79", "title": "The group search of the single-laminate optimiser: leaves, objective, pruning, best design", "statement": "Every leaf of a group search of LAYLA corresponds to a sequence of angles left by the pruning, with the plies, the ply counts and the lamination parameters this sequence gives; the returned leaf is one of them and has the smallest objective, and for the last group it is a successfully repaired full laminate of the right size that passes the lay-up rules, with its own lamination parameters. Nodes removed are never better than nodes kept, and with limits larger than the tree every admissible sequence is a leaf. The objective a node is ranked by should be its own constrained objective: false, the balance penalty of all the children of a node is that of the child of the first angle, and ply counts are those before the repair.", "quantifier": "every laminate, set of rules, group, penalty functions, repair and node limits", "why_tests_cant": "the tree has exponentially many nodes and the ranking depends on floating scores; a test compares one returned stack, not that every leaf is consistent or that nothing better was dropped", "anchors": ["src/LAYLA_V02/beam_search.py:beam_search"]}
{"id": "C80", "title": "An outer step of the single-laminate optimiser puts the groups together", "statement": "Between the groups of an outer step of LAYLA the lamination parameters are those of the plies placed plus those assumed for the groups still to come, and ply counts accumulate; the result is the repaired laminate built from the angles of all the groups, it passes the lay-up rules and carries its own lamination parameters, and its objective is that of this laminate with its own ply counts, 1e10 if the 10% rule is violated. The angle chosen for a ply ends at the place of this ply: true for symmetric laminates and for asymmetric ones with groups of even size, false after a group of odd size. A step whose result keeps an in-plane orthotropy penalty raises AttributeError.", "quantifier": "every division into groups, assumed lamination parameters, set of rules, repair and penalty functions", "why_tests_cant": "the parameters handed from group to group are not visible in the result, and the misplacement of plies needs asymmetric laminates with odd groups", "anchors": ["src/LAYLA_V02/outer_step_sym.py:outer_step_sym", "src/LAYLA_V02/outer_step_asym.py:outer_step_asym"]}
{"id": "C81", "title": "The complete optimisation delivers a blended design with guidelines", "statement": "When BELLA_optimiser reports a design with an objective below 1e10, that design comes from one of the initial ply-drop layouts, its stacking sequences have the ply counts of the panels, blend along the ply-drop layout it is reported with, use allowed angles only and satisfy the active guidelines (symmetry, covering, balance, disorientation, contiguity as delivered by the repair), and no other layout has a smaller objective. In a symmetric structure every design found by the search gives the thickest panel, before the repair, a stack that respects the covering, disorientation and contiguity guidelines and has a middle ply at 0 or 90 if any. A design that meets its targets exactly is reported as well.", "quantifier": "all sets of constraints, panels, layouts (given or generated at random), beam widths, objective functions and angle sets accepted by the constructors", "why_tests_cant": "the properties hold for the composition of search, repair, evaluation and selection for every input; tests run a handful of structures", "anchors": ["src/BELLA/optimiser.py:BELLA_optimiser", "src/BELLA/optimiser_with_one_pdl.py:BELLA_optimiser_one_pdl"]}
{"id": "C82", "title": "Disorientation counters updated ply by ply are exact", "statement": "Starting from counters that are right for the plies already laid, calling calc_n_viola_diso for each new ply, whatever the angles and the ply drops of the panels, ends with the number of disorientation violations of each finished panel laminate: symmetric (with or without middle ply) and asymmetric. The penalties calc_penalty_diso and penalty_contig are coefficient times number of violations over the normalisation, and zero when the guideline is off.", "quantifier": "all numbers of panels, ply-drop layouts, levels, angles, initial partial stacks, limit angles", "why_tests_cant": "the claim is an invariant over arbitrary sequences of calls", "anchors": ["src/guidelines/disorientation.py:calc_n_viola_diso", "src/guidelines/disorientation.py:calc_penalty_diso", "src/guidelines/contiguity.py:penalty_contig"]}
{"id": "C83", "title": "Contiguity counters updated ply by ply are exact", "statement": "Starting from counters that are right for the plies already laid, a call of calc_n_viola_contig for a new ply leaves, in each panel, the number of blocks of more than n_contig plies at one angle of the extended stacks; at the last level it adds the blocks across the junction of the halves.", "quantifier": "all numbers of panels, ply-drop layouts, levels, angles, partial stacks, n_contig from 2 to 6", "why_tests_cant": "the claim is an invariant over arbitrary sequences of calls; the known failures depend on the panels processed before", "anchors": ["src/guidelines/contiguity.py:calc_n_viola_contig", "src/guidelines/contiguity.py:calc_contig_vector"]}
{"id": "C84", "title": "The beam search ranks partial and complete designs by their weighted distance to the targets", "statement": "At each level of the search the twelve weightings of a panel are non-negative, proportional to the weightings of the panel times the moments of areas of the plies already placed, and normalised to the sum 1 (unless all are below 1e-8). The objective of a node is the panel-weighted distance of its lamination parameters to the targets, without penalties, and lies between 0 and 4 when targets and trigonometric values lie between -1 and 1 and weightings are normalised; so the marks 6666 and -6666 of the pruning never collide with an objective. At the last level the objective is that of the laminates the design stands for, with the weightings of the panels themselves.", "quantifier": "all panels, ply counts, ply-drop layouts, levels, angle sequences, targets, weightings, trigonometric tables bounded by 1", "why_tests_cant": "the bounds hold for every node of every search tree; the last claim compares the incremental computation with the laminate for every design", "anchors": ["src/BELLA/optimiser_with_one_pdl.py:BELLA_optimiser_one_pdl", "src/BELLA/moments_of_areas.py:calc_mom_of_areas2", "src/BELLA/objectives.py:calc_obj_each_panel"]}
{"id": "C85", "title": "Queries of a structure", "statement": "For a structure of panels: the thickest panel used as the guide is the first panel with the largest ply count; the list of thickest panels holds, in order and once each, the panels with the largest count (and those that lack only a middle ply in symmetric laminates); the minimum and maximum ply counts and the flags of the thickest panels are right; a middle ply is recorded exactly in the symmetric panels with an odd ply count, at the position with as many plies before as after; the neighbour list of each panel holds exactly the panels it shares a boundary with, each once; a symmetric structure is accepted only if every panel thicker than one with a middle ply has one; areas, patch areas and weights are sums over the panels.", "quantifier": "all structures with any number of panels, ply counts and neighbour declarations", "why_tests_cant": "structures are unbounded in size; ties, self-references and mixed parities are rarely tried together", "anchors": ["src/BELLA/multipanels.py:MultiPanel", "src/BELLA/panels.py:Panel", "src/BELLA/reduced_multipanels.py:ReducedMultiPanel"]}
{"id": "C86", "title": "The change of flexural lamination parameters announced for an exchange of plies is exact", "statement": "calc_delta_lampamD_swap and calc_delta_lampamD_swap_1 return the flexural lamination parameters of the laminate in which two groups of plies at two angles have been exchanged (in both halves of a symmetric laminate) minus those of the laminate before; exchanging back gives the opposite; the repair of the flexural properties calls it with the positions of the plies it exchanges.", "quantifier": "all stacks, trigonometric tables, pairs of allowed angles, disjoint groups of positions, symmetric and asymmetric laminates", "why_tests_cant": "an equality for all stacks and groups of plies of any sizes; a shift of all positions by one changes values but no test on signs", "anchors": ["src/RELAY/repair_flexural_tools.py:calc_delta_lampamD_swap", "src/RELAY/repair_flexural_tools.py:calc_delta_lampamD_swap_1"]}
{"id": "C87", "title": "Ply counts of panels and the 10% penalty of a repaired design", "statement": "calc_ply_counts returns for each panel the number of plies in each allowed direction (-90 counted as 90) and raises KeyError for any other angle; the penalties of a repaired design for the 10% rule are those of its panels taken alone, non-negative, and zero exactly for the panels that satisfy the rule; calc_n_plies_per_angle adds to the initial counts the plies of each sublaminate, the last ply counting for one half when it is the middle ply.", "quantifier": "all numbers of panels, stacks, sets of angles, percentages, initial counts and sublaminates", "why_tests_cant": "counts are kept in half precision, so they are exact only up to a number of plies no test reaches; rows and directions are unbounded", "anchors": ["src/guidelines/ten_percent_rule.py:calc_ply_counts", "src/guidelines/ten_percent_rule.py:calc_penalty_10_pc", "src/guidelines/ten_percent_rule.py:calc_n_plies_per_angle", "src/BELLA/optimiser_with_one_pdl.py:BELLA_optimiser_one_pdl"]}
{"id": "C88", "title": "LAYLA: constraints and parameters that are accepted are usable", "statement": "LAYLA's Constraints(...) accepts exactly the arguments that describe a guideline set (logical switches that are booleans, percentages between 0 and 100, a damage tolerance rule of 1, 2 or 3, distinct fibre angles in (-90, 90] containing the opposite of each angle, an angle-ply, and 0, 45, -45 and 90 with the 10% rule), stores them faithfully (balance implies in-plane orthotropy; percentages divided by 100; neutral values for the guidelines that are off), and its guidelines can be met. Parameters(...) accepts exactly limits that are positive integers, non-negative coefficients, group sizes with the minimum below the maximum for every outer step and not below the contiguity limit, and 12 non-negative weightings; the stored final weightings are the normalised ones, and those for the repair are their in-plane and out-of-plane parts scaled to sum up to one.", "quantifier": "all arguments of the two constructors, of any type and value", "why_tests_cant": "the arguments range over an unbounded set of values and types, and acceptance is an if and only if", "anchors": ["src/LAYLA_V02/constraints.py Constraints.__init__, set_percentages, set_fibre_orientations", "src/LAYLA_V02/parameters.py Parameters.__init__, weights_calculation"]}
{"id": "C89", "title": "LAYLA: an optimisation returns a design that obeys the guidelines", "statement": "For constraints and parameters made by their constructors, LAYLA_optimiser returns a stacking sequence with the requested number of plies, made of the allowed fibre directions, that is the result of a successful repair and satisfies the damage tolerance, balance, in-plane orthotropy, disorientation, contiguity and 10% guidelines that are on.", "quantifier": "all accepted constraints, parameters, ply counts, targets, and all values of the lamination parameters, objective and penalty functions", "why_tests_cant": "the search, the repair and the checks have unboundedly many states, and the claim is about every run", "anchors": ["src/LAYLA_V02/optimiser.py LAYLA_optimiser", "src/LAYLA_V02/beam_search.py beam_search", "src/RELAY/repair_ss.py repair_ss", "src/guidelines/one_stack.py check_lay_up_rules", "src/guidelines/ten_percent_rule.py is_ten_percent_rule"]}
{"id": "C90", "title": "The report file holds exactly the run that was saved", "statement": "append_df_to_excel(file, table, sheet) puts the table below what the sheet already holds, creates the file or the sheet when missing, and changes no other sheet; a table appended with truncate_sheet=True replaces the sheet. delete_file removes an existing file exactly when the user agrees, and otherwise the program stops with the file untouched. After a complete BELLA_optimiser run the file holds the set-up sheets, one table per ply-drop layout on Results and one on Best Result, and nothing of earlier runs; after a failure it holds the tables saved before the failure, and a report of an earlier run is not lost for nothing.", "quantifier": "all histories of appended tables, all earlier contents of the file, all points of failure, all answers of the user", "why_tests_cant": "the file is the state after an arbitrary history of appends, failures and answers", "anchors": ["src/divers/excel.py append_df_to_excel, delete_file", "src/BELLA/optimiser.py BELLA_optimiser", "src/BELLA/save_result.py save_result_BELLAs", "src/BELLA/save_set_up.py"]}
{"id": "C91", "title": "The saved results are those of the optimisation", "statement": "For every completed optimisation the results can be saved. Each row of the table of a layout shows the stacking sequences, objective, penalties, numbers of violations, ply counts, ply percentages and lamination parameters of the design found with that layout for that panel, and the table of the best result those of the design with the smallest objective.", "quantifier": "all constraints, structures, layouts and designs, whatever the number of layouts and the layout that is best", "why_tests_cant": "the tables depend on all the designs, layouts and constraint sets, and the claim is about each of their cells", "anchors": ["src/BELLA/save_result.py save_result_BELLAs, save_result_BELLA_one_pdl", "src/BELLA/results.py BELLA_Results", "src/BELLA/optimiser.py BELLA_optimiser", "src/guidelines/ten_percent_rule.py calc_penalty_10_ss"]}
{"id": "C92", "title": "An input file gives back the set-up it was written from", "statement": "For every set-up (constraints, objective function, material, panels) that can be constructed, the sheets written by the save functions are read back by the run scripts into the same set-up: every rule, percentage, coefficient, material property, target, weighting, neighbour and area.", "quantifier": "all constructible constraints, coefficients, materials and panel structures", "why_tests_cant": "the round trip must hold for all set-ups; the input files shipped with the code use a few of them", "anchors": ["src/BELLA/save_set_up.py save_constraints_BELLA, save_objective_function_BELLA, save_materials, save_multipanel", "run_BELLA_from_input_file_SST_1.py", "src/BELLA/obj_function.py ObjFunction", "src/BELLA/panels.py filter_target_lampams, filter_lampam_weightings"]}
{"id": "C93", "title": "Reading another optimiser's stacking sequence table", "statement": "When the stacking sequence table of another optimiser is imported, each panel receives the last line of the table that has exactly the panel's number of plies; columns that no chosen line uses are removed and the other columns keep their order; the stack of each panel is that line's plies, in order, and has the panel's number of plies; panels with equal numbers of plies get equal stacks; a table with one fibre orientation per column still has this after the import. The import fails, with a KeyError, exactly when some panel's number of plies is that of no line.", "quantifier": "every rectangular table (any number of lines and columns, any cells) and every non-empty list of panel ply counts", "why_tests_cant": "The claim ranges over all tables and all lists of ply counts; a test checks one file.", "anchors": ["FXI-results/format_restults_FXI_SST_1.py: lines 167-186", "FXI-results/format_restults_FXI_horseshoe.py: lines 169-188", "src/BELLA/format_pdl.py: convert_sst_to_ss"]}
{"id": "C94", "title": "The re-design of ply drops always answers", "statement": "For a design in which the reference panel has its required number of allowed plies (mirrored if symmetry is active), all panels have at least three plies, every boundary has a weight and every panel a target, weightings and a panel weighting, both stages of the re-design of the ply drops (panels thinner than the reference panel, then thicker panels) return an answer - success or \"no solution\" - and never stop with an exception, whatever the node limits, objectives, active guidelines and spacing settings, provided one lamination parameter is common to all laminates of the allowed plies (a coupling parameter when symmetry is active, the mean of sin 4t when all angles are multiples of 45 degrees). Their internal symmetry, ply count and lamination parameter checks therefore never fire. Without a common parameter the last check can fire on correct input.", "quantifier": "every constraint set, strip, list of ply counts, design, targets, weightings and node limits", "why_tests_cant": "The claim ranges over all strips, targets and search histories; tests run a few of them.", "anchors": ["src/RELAY/thick_to_thin.py: repair_thick_to_thin", "src/RELAY/thin_to_thick.py: repair_thin_to_thick", "src/guidelines/ply_drop_spacing.py: calc_penalty_spacing"]}
{"id": "C95", "title": "The saved set-up sheets identify the set-up", "statement": "The sheets that describe a set-up hold everything that matters. Two sets of LAYLA constraints whose sheets Constraints show the same are the same rules with the same limits; if the sheets Parameters show the same too, all parameters are the same, and so are the weightings made of them. The same holds of BELLA's sheets Constraints, Parameters and Objective function (its six coefficients). With not_constraints the sheet lists exactly the rules to be broken among disorientation, contiguity, balance, in-plane orthotropy and the 10% rule, with their values, and leaves the other cells as they are. Sheets are compared as numbers, so the claim does not depend on how a number is written.", "quantifier": "all pairs of constraints and parameters that the constructors accept", "why_tests_cant": "a missing or swapped cell shows only for the pairs of set-ups that differ in it; tests write one set-up and look at it", "anchors": ["src/LAYLA_V02/save_set_up.py: save_constraints_LAYLA, save_parameters_LAYLA_V02", "src/BELLA/save_set_up.py: save_parameters_BELLA, save_constraints_BELLA, save_objective_function_BELLA"]}
{"id": "C96", "title": "The search that is asked to break the 10% rule", "statement": "When the single-laminate optimiser is called for a symmetric laminate with not_constraints whose 10% rule is active, one of its five minima (0, 90, 45, -45, or 45 and -45 together) is drawn for an outer step, and every laminate that the beam search of that step completes before the repair is symmetric, has the required number of plies and has too few plies of the drawn orientation for that minimum; the delivered laminate then breaks the rule. A minimum that cannot be undercut makes the step fail, a laminate that is not symmetric is refused, and without such a request the search is the usual one.", "quantifier": "every problem of the search (rules, ply count, objective, penalties, repair, limits), every set of minima, every drawn number, every division into groups and every outer step that returns", "why_tests_cant": "The claim ranges over all laminates reachable in the search tree, all draws and all minima; a test run samples one draw and one tree, and only the final laminate is visible.", "anchors": ["src/LAYLA_V02/beam_search.py: beam_search (lines 75-90, 196-216)", "src/LAYLA_V02/outer_step_sym.py: outer_step_sym (lines 66-126)", "src/LAYLA_V02/optimiser.py: LAYLA_optimiser (lines 55-59)"]}
{"id": "C97", "title": "The repair of a multi-panel design answers instead of raising", "statement": "With the in-plane refinement and the rule of Abdalla off, repair_mp called on increasing panels with a blended ply-drop layout (mirrored and of even plies in the reference panel when symmetry is active), allowed angles including 0 and a laminate large enough for the sizes of the repair, returns success or failure and a design: no exception, no failing check on its own result, whatever the targets, weights, limits of the searches and the fibre angles.", "quantifier": "all constraints, panels, layouts, stacking sequences, targets, weights and search limits within those conditions", "why_tests_cant": "A test runs one design; that no choice of laminate and target reaches one of the many raise statements of the three stages is a statement about all of them.", "anchors": ["src/RELAY/repair_mp.py: repair_mp", "src/RELAY/repair_reference_panel.py: repair_reference_panel", "src/RELAY/thick_to_thin.py: repair_thick_to_thin", "src/RELAY/thin_to_thick.py: repair_thin_to_thick"]}
{"id": "C98", "title": "The run of a layout returns a design", "statement": "For a symmetric structure of panels of even ply counts and a given ply-drop layout: once the search has found designs whose laminates of the reference panel are within reach of the repair (the conditions of C97), BELLA_optimiser_one_pdl repairs every design or reports it as not repairable, and returns a result as soon as one design is repaired with a finite objective; that result has an objective below 1e10 and is a delivered design (blended table of the ply counts asked for, allowed angles). Whatever its outcome the repair returns one stack per panel with the ply count of the panel and allowed angles (or 0).", "quantifier": "all constraints, multi-panel structures, ply-drop layouts, targets, weights, beam widths and limits of the repair within those conditions", "why_tests_cant": "A test runs one structure; that no combination of found designs makes the concatenation of search, repair, evaluation and selection stop with an exception or return nothing is a statement about all of them.", "anchors": ["src/BELLA/optimiser_with_one_pdl.py: BELLA_optimiser_one_pdl", "src/RELAY/repair_mp.py: repair_mp", "src/BELLA/optimisation.py: BELLA_optimiser"]}
{"id": "C99", "title": "The beam search answers: designs, or the exception saying that none is left", "statement": "For a symmetric structure whose panels all have an even number of plies and inputs that the constructors accept, over every ply-drop layout of the panels, the search ends: it returns at least one design and at most as many as the limit on the final designs, or it raises the exception that says that no design is left. No index error, no failed check and no other exception can stop it. With the conditions of C98 on the repair, the run of the layout then reports a design, unless the search has raised that exception.", "quantifier": "all constraints, plies, targets, weightings, limits of branching, ply-drop layouts and lamination-parameter functions of a symmetric structure of even panels", "why_tests_cant": "A test runs the search on a few structures; which index is out of range, or which table is empty, depends on the whole history of the prunings along the levels, of which there is an unbounded number.", "anchors": ["src/BELLA/optimiser_with_one_pdl.py: BELLA_optimiser_one_pdl", "src/BELLA/pruning.py: pruning_diso_contig_damtol"]}
{"id": "C100", "title": "When every fibre angle has a way on, the search finds designs", "statement": "For a symmetric structure (with 45 degrees among the angles when damage tolerance is enforced, and a thickest panel of more than three plies for its rules 2 and 3), if from every allowed angle another allowed angle can follow (within the disorientation limit, and different from it when contiguity is enforced), and when the panels have a middle ply also 0 or 90 degrees can follow every angle in the same sense, then for every target, weighting, ply-drop layout and limits of branching of at least one, the search returns at least one design and at most as many as the limit on the final designs: the exception that no design is left cannot be raised. Without such a way on, the exception does occur.", "quantifier": "all constraints, plies, targets, weightings, non-zero limits of branching and ply-drop layouts of a symmetric structure", "why_tests_cant": "Whether the branching dies out depends on the prunings along an unbounded number of levels, and on which nodes the local and global prunings have kept.", "anchors": ["src/BELLA/optimiser_with_one_pdl.py: BELLA_optimiser_one_pdl", "src/BELLA/pruning.py: pruning_diso_contig_damtol"]}
