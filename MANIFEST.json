{
 "claims": [
  {
   "property": "C01",
   "status": "proved",
   "theorems": [
    "C01_dictionary_container_is_a_map"
   ],
   "note": "Dictionary mode over an arbitrary call history refines the expected finite map."
  },
  {
   "property": "C02",
   "status": "proved",
   "theorems": [
    "C02_list_mode_agrees_with_dictionary_mode",
    "C02_modes_differ_without_discipline_refuted"
   ],
   "note": "Proved under the discipline stated in the property; a second theorem records that the modes differ without it."
  },
  {
   "property": "C03",
   "status": "proved",
   "theorems": [
    "C03_list_append_pop_lifo"
   ],
   "note": "Append/pop are inverse, pop removes the newest occurrence, get reads the oldest."
  },
  {
   "property": "C04",
   "status": "proved",
   "theorems": [
    "C04_containment_is_a_preorder",
    "C04_path_containment_is_prefix"
   ],
   "note": "Preorder in both modes (dictionary reflexivity for distinct keys, which every dictionary has) and prefix characterisation for graph paths."
  },
  {
   "property": "C05",
   "status": "partial",
   "theorems": [
    "C05_ne_is_not_eq_refuted",
    "C05_ne_is_not_eq_partial"
   ],
   "note": "False of the code: two never-created containers are == but != raises. The remaining cases are proved."
  },
  {
   "property": "C06",
   "status": "partial",
   "theorems": [
    "C06_list_difference",
    "C06_dictionary_difference_partial",
    "C06_none_values_not_removed_refuted",
    "C06_difference_mode_mismatch"
   ],
   "note": "List mode proved in full; in dictionary mode items with value None are never removed (refuted), proved for other values; mode mismatch raises TypeError."
  },
  {
   "property": "C07",
   "status": "partial",
   "theorems": [
    "C07_nested_iteration_refuted",
    "C07_peek_in_loop_diverges_refuted",
    "C07_iteration_visits_all_partial"
   ],
   "note": "False of the code for nested loops over one object (general refutation, plus a diverging peek). Proved for bodies that do not iterate the same object."
  },
  {
   "property": "C08",
   "status": "partial",
   "theorems": [
    "C08_extend_shares_items_refuted",
    "C08_no_interference_without_sharing_partial"
   ],
   "note": "False of the code: list-mode extend shares item cells. Proved for any interleaving of operations on containers not connected by extend."
  },
  {
   "property": "C09",
   "status": "proved",
   "theorems": [
    "C09_pool_numbers_each_intervention_once"
   ],
   "note": "Keys, order, completeness and truncation to the shortest column, for all configurations."
  },
  {
   "property": "C10",
   "status": "proved",
   "theorems": [
    "C10_available_are_the_unused",
    "C10_no_intervention_twice"
   ],
   "note": "Exact characterisation of the offer, and no repetition in any OPF run or stored plan of a whole run."
  },
  {
   "property": "C11",
   "status": "proved",
   "theorems": [
    "C11_every_nonempty_subset_once"
   ],
   "note": "Membership, uniqueness, count and order of the combinations."
  },
  {
   "property": "C12",
   "status": "proved",
   "theorems": [
    "C12_search_backtracks",
    "C12_the_first_call"
   ],
   "note": "For every call reachable by the search, and for the first call."
  },
  {
   "property": "C13",
   "status": "partial",
   "theorems": [
    "C13_times_shift_together_partial",
    "C13_times_not_restored_refuted"
   ],
   "note": "False of the code (refuted): times are only lowered by a common amount, which is what is proved."
  },
  {
   "property": "C14",
   "status": "partial",
   "theorems": [
    "C14_in_service_when_due_partial",
    "C14_early_service_refuted"
   ],
   "note": "False of the code (refuted: early service). Proved: only selected interventions serve, none is late, exact without construction times."
  },
  {
   "property": "C15",
   "status": "proved",
   "theorems": [
    "C15_stored_plans_are_root_to_leaf_paths"
   ],
   "note": "All three tables of plans."
  },
  {
   "property": "C16",
   "status": "proved",
   "theorems": [
    "C16_stored_plans_were_feasible"
   ],
   "note": "Under the property's assumption of immediately available interventions."
  },
  {
   "property": "C17",
   "status": "partial",
   "theorems": [
    "C17_costs_are_discounted_sums_partial",
    "C17_charged_but_not_listed_refuted"
   ],
   "note": "False of the code with construction times (refuted). Operation cost proved in general, investment cost for immediately available interventions."
  },
  {
   "property": "C18",
   "status": "proved",
   "theorems": [
    "C18_search_terminates_with_aligned_tables",
    "C18_enough_fuel"
   ],
   "note": "Termination, absence of exceptions, alignment, and independence of the model's fuel."
  },
  {
   "property": "C19",
   "status": "partial",
   "theorems": [
    "C19_renumbering_duplicates_keys_refuted"
   ],
   "note": "False of the code (refuted): renumbering keys 0,2 gives 0,0."
  },
  {
   "property": "C20",
   "status": "proved",
   "theorems": [
    "C20_elimination_is_exact"
   ],
   "note": "For incumbents with distinct keys (C19 records when that fails); also when the flag that admits new trees is cleared."
  },
  {
   "property": "C21",
   "status": "proved",
   "theorems": [
    "C21_reported_tree_covers_every_node"
   ],
   "note": "Invariant of every run of the search."
  },
  {
   "property": "C22",
   "status": "proved",
   "theorems": [
    "C22_reported_cost_never_increases"
   ],
   "note": "Over every call of the search, hence over the whole run."
  },
  {
   "property": "C23",
   "status": "partial",
   "theorems": [
    "C23_reported_plans_anticipate_refuted",
    "C23_two_stage_not_anticipating_partial"
   ],
   "note": "False of the code in general (refuted), even with immediately available interventions. Proved for trees of one decision node and any number of leaves, with immediate interventions and an OPF without memory."
  },
  {
   "property": "C24",
   "status": "proved",
   "theorems": [
    "C24_leaf_tries_every_selection",
    "C24_leaf_decision_is_optimal"
   ],
   "note": "Exhaustive enumeration at a leaf, and optimality when the OPF answer depends only on node and interventions."
  },
  {
   "property": "C25",
   "status": "partial",
   "theorems": [
    "C25_reported_tree_not_optimal_refuted",
    "C25_two_stage_optimal_partial"
   ],
   "note": "False of the code in general (refuted): three-stage tree with one intervention. Optimality proved for trees of one decision node and any number of leaves, with immediate interventions and an OPF without memory."
  },
  {
   "property": "C26",
   "status": "partial",
   "theorems": [
    "C26_feasible_but_no_plan_refuted",
    "C26_two_stage_feasible_yields_plan_partial"
   ],
   "note": "False of the code in general (refuted): three-stage tree, empty pool. Proved for trees of one decision node and any number of leaves, with immediate interventions and an OPF without memory."
  },
  {
   "property": "C27",
   "status": "partial",
   "theorems": [
    "C27_true_means_feasible_below_partial",
    "C27_false_although_feasible_refuted",
    "C27_two_stage_answer_partial"
   ],
   "note": "Soundness of True proved; completeness refuted. On two-stage trees the answer is characterised exactly."
  },
  {
   "property": "C28",
   "status": "partial",
   "theorems": [
    "C28_one_cost_per_scenario_partial",
    "C28_two_stage_tables_partial"
   ],
   "note": "Proved for tables with distinct plan numbers and disjoint leaf scenarios, and end to end (search, costs, lines) for two-stage trees; distinctness of the numbers of the final table is not proved for deeper trees."
  },
  {
   "property": "C29",
   "status": "partial",
   "theorems": [
    "C29_anticipative_planner_stores_nothing_refuted"
   ],
   "note": "False of the code (refuted): NameError, and nothing is ever stored."
  },
  {
   "property": "C30",
   "status": "proved",
   "theorems": [
    "C30_scenarios_partitioned",
    "C30_share_iff_equal"
   ],
   "note": "Partition, numbering and sharing, for every profile (ragged ones included)."
  },
  {
   "property": "C31",
   "status": "proved",
   "theorems": [
    "C31_edges_join_shared_scenarios",
    "C31_scenario_path"
   ],
   "note": "For every rectangular profile."
  },
  {
   "property": "C32",
   "status": "proved",
   "theorems": [
    "C32_conversion_unfolds",
    "C32_scenarios_keep_their_path",
    "C32_second_root_lost_refuted",
    "C32_single_stage_raises"
   ],
   "note": "For every staged graph with one root, every enumeration order of sets and every node data; also instantiated on scenario graphs, scenario by scenario. Two further theorems record what happens outside the quantifier: several roots, single stage."
  },
  {
   "property": "C33",
   "status": "partial",
   "theorems": [
    "C33_staged_tree_is_arborescence_partial",
    "C33_tree_test_is_undirected_refuted"
   ],
   "note": "False of the code in general (refuted): is_tree ignores directions. Proved for staged graphs with one root."
  },
  {
   "property": "C34",
   "status": "proved",
   "theorems": [
    "C34_node_loads_are_means",
    "C34_every_node_has_its_loads"
   ],
   "note": "Means as v*n == sum over exact rationals; bus tables, for all nodes of the converted tree."
  },
  {
   "property": "C35",
   "status": "partial",
   "theorems": [
    "C35_years_agree_iff_ascending_partial",
    "C35_years_disagree_refuted"
   ],
   "note": "False of the code for unsorted indices (refuted); proved to hold exactly for ascending ones."
  },
  {
   "property": "C36",
   "status": "proved",
   "theorems": [
    "C36_centroids_are_means",
    "C36_every_time_step",
    "C36_gap_raises"
   ],
   "note": "For every labelling without gaps; labels with a gap are proved to raise IndexError. Birch itself is an oracle."
  },
  {
   "property": "C37",
   "status": "proved",
   "theorems": [
    "C37_blocks_are_averaged",
    "C37_other_lengths",
    "C37_all_profiles"
   ],
   "note": "Over exact rationals."
  },
  {
   "property": "C38",
   "status": "proved",
   "theorems": [
    "C38_growth_is_ratio_to_first_year",
    "C38_unequal_first_year_rejected"
   ],
   "note": "The square root is an arbitrary function; the ratio needs a non-zero first-year total to be 1."
  },
  {
   "property": "C39",
   "status": "partial",
   "theorems": [
    "C39_numerals_are_read_partial",
    "C39_exponent_with_separator_refuted"
   ],
   "note": "False for an exponent followed by a separator (refuted: ValueError). Proved for all numerals without exponent and any separators, and with exponent at the end of the token."
  },
  {
   "property": "C40",
   "status": "partial",
   "theorems": [
    "C40_bracket_before_unsigned_partial",
    "C40_bracket_loses_sign_refuted"
   ],
   "note": "False for negative numerals (refuted: the sign is lost). Proved for unsigned ones."
  },
  {
   "property": "C41",
   "status": "proved",
   "theorems": [
    "C41_reinforcements"
   ],
   "note": "every list of well-formed line reinforcements (single or clustered positions) on every network; sqrt 3 is any positive number, voltages and ratings positive"
  },
  {
   "property": "C42",
   "status": "proved",
   "theorems": [
    "C42_order_irrelevant"
   ],
   "note": "every permutation of the updates; networks compared cell by cell, numbers up to =="
  },
  {
   "property": "C43",
   "status": "proved",
   "theorems": [
    "C43_history_independent",
    "C43_opf_network"
   ],
   "note": "non-anticipative planner (the one GeneralManager runs); C43_opf_network states what the OPF sees for line interventions and node loads after any history; the base planner is C64"
  },
  {
   "property": "C44",
   "status": "proved",
   "theorems": [
    "C44_loads"
   ],
   "note": "every list of load updates on existing columns other than 'bus'"
  },
  {
   "property": "C45",
   "status": "partial",
   "theorems": [
    "C45_parameters_partial",
    "C45_never_applied",
    "C45_refuted"
   ],
   "note": "refuted: index[0] is a numpy integer, no Python int, so update_multiple_parameters takes the cluster branch and len() raises TypeError; C45_never_applied shows that no flexible unit is ever updated; the parameters themselves are built correctly (C45_parameters_partial)"
  },
  {
   "property": "C46",
   "status": "partial",
   "theorems": [
    "C46_refuted",
    "C46_cluster_counts_from_one_partial",
    "C46_cluster_is_its_lines_partial"
   ],
   "note": "refuted: clusters count from one; C46_cluster_counts_from_one_partial and C46_cluster_is_its_lines_partial state the true relation"
  },
  {
   "property": "C47",
   "status": "proved",
   "theorems": [
    "C47_positions",
    "C47_planner_input"
   ],
   "note": "Positions, parents, shares and the whole table built from growth data. Years as numbers; default scenario list (all leaves)."
  },
  {
   "property": "C48",
   "status": "proved",
   "theorems": [
    "C48_multipliers"
   ],
   "note": "For any number of years, with the multipliers compounded over the path; also the demand-response factors."
  },
  {
   "property": "C49",
   "status": "partial",
   "theorems": [
    "C49_refuted",
    "C49_all_countries",
    "C49_partial",
    "C49_growth_partial"
   ],
   "note": "Refuted for all three countries: the last 2050 entry is derived from the second 2040 entry. Proved: 2030 and 2040 and the first 2050 entry compound; entries equally spaced."
  },
  {
   "property": "C50",
   "status": "partial",
   "theorems": [
    "C50_clusters",
    "C50_refuted"
   ],
   "note": "Proved for the clusters, with the screening solver as an oracle. Refuted for the sizes listed per branch: zero becomes the least size."
  },
  {
   "property": "C51",
   "status": "partial",
   "theorems": [
    "C51_reduction",
    "C51_zero_refuted"
   ],
   "note": "Proved for every limit above zero, including which clusters are chosen. A limit of zero raises ZeroDivisionError (refuted). Costs need sizes of the line catalogue."
  },
  {
   "property": "C52",
   "status": "proved",
   "theorems": [
    "C52_ordering"
   ],
   "note": "Ordering succeeds for clusters of one length and is a permutation of the clusters without repetitions."
  },
  {
   "property": "C53",
   "status": "partial",
   "theorems": [
    "C53_single_digits_partial",
    "C53_refuted"
   ],
   "note": "Refuted: texts are read digit by digit. Proved: right exactly when all entries have one digit."
  },
  {
   "property": "C54",
   "status": "partial",
   "theorems": [
    "C54_refuted",
    "C54_cumulative_partial",
    "C54_cheaper_partial",
    "C54_misfit_partial"
   ],
   "note": "Refuted: reinforcements of rejected clusters stay in the network. Proved: order of the search, networks offered to the OPF, cluster and cost per node, the flag; and for a monotone OPF that every cheaper cluster fails on its own; clusters wider than the network are never assigned."
  },
  {
   "property": "C55",
   "status": "proved",
   "theorems": [
    "C55_round_trip"
   ],
   "note": "Round trip for all tables, and what the table holds in between."
  },
  {
   "property": "C56",
   "status": "partial",
   "theorems": [
    "C56_factors",
    "C56_undefined",
    "C56_refuted"
   ],
   "note": "Refuted for rates 0 and -2, where the capital recovery factor divides by zero. Proved for all other rates and characterised for all."
  },
  {
   "property": "C57",
   "status": "proved",
   "theorems": [
    "C57_tree"
   ],
   "note": "For all data with non-empty levels, on the arrays the code builds."
  },
  {
   "property": "C58",
   "status": "partial",
   "theorems": [
    "C58_levels_partial",
    "C58_refuted"
   ],
   "note": "The path statement is refuted: intervals of a level follow one another. Proved: the end level is the weighted sum of inputs less outputs over all nodes, and each node ends at its start plus its contribution, unless exactly one node is followed by alternatives (C86)."
  },
  {
   "property": "C59",
   "status": "proved",
   "theorems": [
    "C59_wind"
   ],
   "note": ""
  },
  {
   "property": "C60",
   "status": "partial",
   "theorems": [
    "C60_status",
    "C60_intact",
    "C60_refuted"
   ],
   "note": "Proved for positive drawn times; refuted for time to failure zero."
  },
  {
   "property": "C61",
   "status": "proved",
   "theorems": [
    "C61_planning_on_the_created_tree"
   ],
   "note": "For profiles with one cluster at the first stage and at least two stages."
  },
  {
   "property": "C62",
   "status": "proved",
   "theorems": [
    "C62_from_bus_data_to_plans"
   ],
   "note": "Composition of C38, C36, C35, C61. The square root, Birch labels, set order and OPF are arbitrary."
  },
  {
   "property": "C63",
   "status": "partial",
   "theorems": [
    "C63_controllers",
    "C63_refuted",
    "C63_second_initialisation_partial"
   ],
   "note": "proved for clusters that name a configured profile; refuted for the others (position -1 is the last row)"
  },
  {
   "property": "C64",
   "status": "partial",
   "theorems": [
    "C64_refuted_history",
    "C64_refuted_candidate"
   ],
   "note": "refuted twice: without new interventions the previous network is reused, with new ones the candidate's interventions are dropped because each call rebuilds the network"
  },
  {
   "property": "C65",
   "status": "proved",
   "theorems": [
    "C65_options",
    "C65_exact",
    "C65_line_lengths"
   ],
   "note": "Soundness for all inputs; existence when all sizes are in the catalogue and nothing is oversized; line lengths filled in."
  },
  {
   "property": "C66",
   "status": "partial",
   "theorems": [
    "C66_unlisted",
    "C66_refuted"
   ],
   "note": "Refuted: sizes are always looked up in the catalogue of lines. Proved in general: any size outside it, or too near its end for the oversize, raises IndexError."
  },
  {
   "property": "C67",
   "status": "partial",
   "theorems": [
    "C67_paths",
    "C67_five_years",
    "C67_refuted"
   ],
   "note": "Proved up to four years; refuted beyond (IndexError for any solution)."
  },
  {
   "property": "C68",
   "status": "partial",
   "theorems": [
    "C68_never_saved",
    "C68_refuted",
    "C68_cluster",
    "C68_cluster_refuted"
   ],
   "note": "Refuted: no plan with lines in all its clusters is ever saved (KeyError or earlier), and the cluster found is the first one of equal size."
  },
  {
   "property": "C69",
   "status": "partial",
   "theorems": [
    "C69_refuted"
   ],
   "note": "Refuted when the number of clusters is reduced. C51 proves it when it is not."
  },
  {
   "property": "C70",
   "status": "partial",
   "theorems": [
    "C70_nested_partial",
    "C70_refuted"
   ],
   "note": "Proved for clusters that can be compared branch by branch; refuted in general."
  },
  {
   "property": "C71",
   "status": "partial",
   "theorems": [
    "C71_last_scenario_partial",
    "C71_refuted"
   ],
   "note": "Refuted; proved what is assumed instead: the investments of the last node of every earlier year."
  },
  {
   "property": "C72",
   "status": "proved",
   "theorems": [
    "C72_reported",
    "C72_only_then"
   ],
   "note": "The run ends with the message that nothing is to be built, and only in that case."
  },
  {
   "property": "C73",
   "status": "partial",
   "theorems": [
    "C73_gain",
    "C73_refuted"
   ],
   "note": "Refuted: the gain is larger by the square root of 3; proved for all networks."
  },
  {
   "property": "C74",
   "status": "partial",
   "theorems": [
    "C74_refuted",
    "C74_units_partial"
   ],
   "note": "Refuted with a generator and an external grid. Proved: no unit is lost; a generator that replaces a grid has no cost unless another table has that element number; right for one grid without generators."
  },
  {
   "property": "C75",
   "status": "partial",
   "theorems": [
    "C75_scaling",
    "C75_refuted"
   ],
   "note": "Proved for multipliers expanded from the scenarios, as the planning run does; refuted for multipliers given per bus."
  },
  {
   "property": "C76",
   "status": "partial",
   "theorems": [
    "C76_refuted",
    "C76_independent_partial"
   ],
   "note": "Refuted: 60000 per MVA is reported, whatever the catalogue, in a field of millions. Proved that catalogue costs have no influence."
  },
  {
   "property": "C77",
   "status": "proved",
   "theorems": [
    "C77_run"
   ],
   "note": "Composition of clusters, planner input, verification and report, for one to four years."
  },
  {
   "property": "C78",
   "status": "partial",
   "theorems": [
    "C78_grow",
    "C78_refuted"
   ],
   "note": "Refuted; for all rates between 0 and 1 the factors grow."
  },
  {
   "property": "C79",
   "status": "partial",
   "theorems": [
    "C79_ignored_partial",
    "C79_refuted"
   ],
   "note": "Refuted; the outcome does not depend on the clusters given."
  },
  {
   "property": "C80",
   "status": "partial",
   "theorems": [
    "C80_refuted"
   ],
   "note": "Refuted: every run fails."
  },
  {
   "property": "C81",
   "status": "partial",
   "theorems": [
    "C81_cooling",
    "C81_refuted"
   ],
   "note": "Proved for shutdown temperature up to the maximum temperature; refuted above it."
  },
  {
   "property": "C82",
   "status": "partial",
   "theorems": [
    "C82_refuted"
   ],
   "note": "Refuted for all generator data."
  },
  {
   "property": "C83",
   "status": "proved",
   "theorems": [
    "C83_data"
   ],
   "note": "For matrices, and for lists with one vector."
  },
  {
   "property": "C84",
   "status": "partial",
   "theorems": [
    "C84_refuted"
   ],
   "note": "Refuted for all lists of two or more intervals at the first level."
  },
  {
   "property": "C85",
   "status": "partial",
   "theorems": [
    "C85_refuted"
   ],
   "note": "Refuted for all data with uncertainty at the first level."
  },
  {
   "property": "C86",
   "status": "partial",
   "theorems": [
    "C86_refuted"
   ],
   "note": "Refuted for a single uncertain node; C58_levels_partial covers all other data."
  },
  {
   "property": "C87",
   "status": "proved",
   "theorems": [
    "C87_equality_is_equality_of_contents"
   ],
   "note": "For lawful value equality."
  },
  {
   "property": "C88",
   "status": "proved",
   "theorems": [
    "C88_incumbent_restored_only_when_empty"
   ],
   "note": ""
  },
  {
   "property": "C89",
   "status": "proved",
   "theorems": [
    "C89_case_file_is_read_exactly"
   ],
   "note": "Words, numbers, tables and the outer loop; the layout is described independently of the reader. Numbers with exponent must stand alone (C39)."
  },
  {
   "property": "C90",
   "status": "partial",
   "theorems": [
    "C90_refuted",
    "C90_rest_of_table_dropped_partial"
   ],
   "note": "Refuted. Proved: the table ends at the first line with fewer words than columns and the rows after it are dropped."
  },
  {
   "property": "C91",
   "status": "partial",
   "theorems": [
    "C91_refuted",
    "C91_next_table_lost_partial",
    "C91_last_table_partial"
   ],
   "note": "Refuted. Proved: a table whose header directly follows the last row of another one is not read; a table that reaches the end of the file raises IndexError."
  },
  {
   "property": "C92",
   "status": "partial",
   "theorems": [
    "C92_refuted",
    "C92_attached_sign_partial"
   ],
   "note": "Refuted. Proved: version or baseMVA with the equality sign attached to the name always raises ValueError."
  },
  {
   "property": "C93",
   "status": "partial",
   "theorems": [
    "C93_refuted",
    "C93_long_header_partial",
    "C93_shifted_row_partial",
    "C93_header_ignored_partial"
   ],
   "note": "Refuted. Proved: a header line with more words than columns raises ValueError, with fewer everything after the name is ignored, and a bus or branch row that starts right after the bracket loses its first number and is shifted."
  },
  {
   "property": "C94",
   "status": "partial",
   "theorems": [
    "C94_refuted",
    "C94_width_partial"
   ],
   "note": "Refuted. Proved: every row read has exactly the fixed width of its table, for all files."
  },
  {
   "property": "C95",
   "status": "partial",
   "theorems": [
    "C95_refuted",
    "C95_word_without_digits_partial"
   ],
   "note": "Refuted. Proved: a word without digits among the first columns of any row rejects the file."
  },
  {
   "property": "C96",
   "status": "partial",
   "theorems": [
    "C96_refuted",
    "C96_other_numbers_partial"
   ],
   "note": "False: with two or more profiles the base graph stays empty; the conversion to a tree then raises NetworkXPointlessConcept (C96_refuted), and without conversion the control graph has no nodes. C96_other_numbers_partial shows this for every number of profiles other than one."
  },
  {
   "property": "C97",
   "status": "proved",
   "theorems": [
    "C97_flexible_units"
   ],
   "note": "For every table and node, under success of the creation; the columns are listed in the statement."
  },
  {
   "property": "C98",
   "status": "proved",
   "theorems": [
    "C98_flexibility_generators",
    "C98_updates_find_them"
   ],
   "note": "Fresh labels, unchanged old cells and one generator with its cost row per bus; C98_updates_find_them needs that the network has no own generator at the bus (otherwise the first one is taken)."
  },
  {
   "property": "C99",
   "status": "proved",
   "theorems": [
    "C99_attest_profiles",
    "C99_columns_identify_components"
   ],
   "note": "For every sheet with equally long rows; numbers of components are integers (simplification of the model)."
  },
  {
   "property": "C100",
   "status": "partial",
   "theorems": [
    "C100_first_profile_only_partial",
    "C100_refuted"
   ],
   "note": "False: the chosen columns are popped from the entry by the first profile (C100_refuted). C100_first_profile_only_partial shows what every sheet gives."
  },
  {
   "property": "C101",
   "status": "proved",
   "theorems": [
    "C101_unknown_types_rejected"
   ],
   "note": "For every sheet with equally long rows."
  },
  {
   "property": "C102",
   "status": "partial",
   "theorems": [
    "C102_original_profiles_partial",
    "C102_refuted"
   ],
   "note": "False for tables with rows of different lengths, which are filled up with missing values (C102_refuted). Proved: rectangular tables are kept exactly, tables with a too long row or only too short rows are rejected."
  },
  {
   "property": "C103",
   "status": "proved",
   "theorems": [
    "C103_profiles_fit_the_periods"
   ],
   "note": "For every successful reading, whatever the files contain."
  },
  {
   "property": "C104",
   "status": "partial",
   "theorems": [
    "C104_second_file_partial",
    "C104_refuted"
   ],
   "note": "False: investment options accumulate and old tables stay (C104_refuted). C104_second_file_partial describes the second reading completely."
  },
  {
   "property": "C105",
   "status": "partial",
   "theorems": [
    "C105_optimisation_formats_partial",
    "C105_network_formats_partial",
    "C105_refuted"
   ],
   "note": "False for profiles of the network (TypeError, C105_refuted; C105_network_formats_partial for all of them); true for the optimisation profiles (C105_optimisation_formats_partial)."
  },
  {
   "property": "C106",
   "status": "partial",
   "theorems": [
    "C106_other_files_partial",
    "C106_initialised",
    "C106_refuted"
   ],
   "note": "False: other paths give default parameters marked as not initialised (C106_refuted, C106_other_files_partial); C106_initialised relates the mark and the extension."
  },
  {
   "property": "C107",
   "status": "partial",
   "theorems": [
    "C107_m_files_partial",
    "C107_refuted",
    "C107_mat_files_partial"
   ],
   "note": "False: every path that ends in the letter m is converted (C107_refuted). Proved: .m files are converted, .mat files are not."
  },
  {
   "property": "C108",
   "status": "partial",
   "theorems": [
    "C108_tables_partial",
    "C108_refuted"
   ],
   "note": "False for repeated groups, of which the last table wins (C108_refuted). C108_tables_partial gives the table found under every name."
  },
  {
   "property": "C109",
   "status": "proved",
   "theorems": [
    "C109_power_is_balanced"
   ],
   "note": "For distinct bus numbers; costs_match says that every row of coefficients has the length NCOST, which the converter guarantees."
  },
  {
   "property": "C110",
   "status": "proved",
   "theorems": [
    "C110_answers_are_plans"
   ],
   "note": "The limits are asymmetric, as in the code: earlier investments only count from the first bus to the second (see C111, C112)."
  },
  {
   "property": "C111",
   "status": "partial",
   "theorems": [
    "C111_refuted",
    "C111_orientation_partial"
   ],
   "note": "False: previous investments only count in one direction (C111_refuted). Proved when the exchanged branches have no previous investment."
  },
  {
   "property": "C112",
   "status": "partial",
   "theorems": [
    "C112_refuted",
    "C112_earlier_investments_partial"
   ],
   "note": "False (C112_refuted: the same investment is charged again). Proved: more previous investments keep an answer feasible, and replace the investments of answers whose flows respect the ratings in the second direction."
  },
  {
   "property": "C113",
   "status": "partial",
   "theorems": [
    "C113_refuted",
    "C113_shed_all_partial"
   ],
   "note": "False: reactive demand enters the balance and cannot be shed (C113_refuted). Proved where the demand of every bus is between zero and its active demand."
  },
  {
   "property": "C114",
   "status": "partial",
   "theorems": [
    "C114_refuted",
    "C114_convex_partial"
   ],
   "note": "False beyond PMIN + PMAX, reached with multipliers above one (C114_refuted). Proved for convex quadratics below it, with the error bound a*PMAX^2/36 for optimal answers."
  },
  {
   "property": "C115",
   "status": "partial",
   "theorems": [
    "C115_refuted",
    "C115_accepted_partial"
   ],
   "note": "False: the first generator must have positive PMAX (C115_refuted). C115_accepted_partial: for well-formed cases this is necessary and sufficient."
  },
  {
   "property": "C116",
   "status": "proved",
   "theorems": [
    "C116_invests_the_overload"
   ],
   "note": "Optimal: feasible with the least objective among the feasible assignments."
  },
  {
   "property": "C117",
   "status": "proved",
   "theorems": [
    "C117_results"
   ],
   "note": ""
  },
  {
   "property": "C118",
   "status": "proved",
   "theorems": [
    "C118_more_contingencies"
   ],
   "note": "For a nonnegative penalty."
  },
  {
   "property": "C119",
   "status": "proved",
   "theorems": [
    "C119_converted_exactly",
    "C119_demands"
   ],
   "note": "For all three copies; whole columns hold the number without its fraction."
  },
  {
   "property": "C120",
   "status": "partial",
   "theorems": [
    "C120_refuted",
    "C120_columns_partial"
   ],
   "note": "False: short rows (C120_refuted). Proved for every file: a column is never longer than one to its left."
  },
  {
   "property": "C121",
   "status": "partial",
   "theorems": [
    "C121_refuted",
    "C121_slack_partial",
    "C121_last_partial"
   ],
   "note": "False when a row of one word shifts the columns (C121_refuted). Proved: the slack bus is some bus and some bus has type 3, for every file; and at the same position, the last one, for every well-formed file."
  },
  {
   "property": "C122",
   "status": "proved",
   "theorems": [
    "C122_costs_consistent"
   ],
   "note": "For every file and copy."
  },
  {
   "property": "C123",
   "status": "partial",
   "theorems": [
    "C123_refuted",
    "C123_texts_partial"
   ],
   "note": "False for the copy in pyeneI.py (C123_refuted), always: the last entry of every row is a text. The other copies store numbers only."
  },
  {
   "property": "C124",
   "status": "partial",
   "theorems": [
    "C124_refuted",
    "C124_tail_partial"
   ],
   "note": "False for piecewise-linear costs (C124_refuted). C124_tail_partial: in every file the words after the first 4 + NCOST have no effect."
  },
  {
   "property": "C125",
   "status": "partial",
   "theorems": [
    "C125_refuted",
    "C125_decimal_partial"
   ],
   "note": "False (C125_refuted). C125_decimal_partial: every file with such a row is rejected by the two copies that read an integer."
  },
  {
   "property": "C126",
   "status": "partial",
   "theorems": [
    "C126_refuted",
    "C126_inside_partial",
    "C126_between_partial"
   ],
   "note": "False inside tables (C126_refuted), in every table of every file; proved between tables."
  },
  {
   "property": "C127",
   "status": "partial",
   "theorems": [
    "C127_refuted",
    "C127_silent_partial",
    "C127_agreement_partial"
   ],
   "note": "False (C127_refuted): mpc.bus=[ is ignored by the converter, for every file whose headers are written so. Proved for files that are well-formed for both with each table given once."
  },
  {
   "property": "C128",
   "status": "proved",
   "theorems": [
    "C128_file_is_screened"
   ],
   "note": "as_mpc selects the entries that the screening model reads."
  },
  {
   "property": "C129",
   "status": "partial",
   "theorems": [
    "C129_refuted",
    "C129_whole_partial",
    "C129_infinite_partial"
   ],
   "note": "False for the copy of the planner (C129_refuted). Proved: in well-formed files entries that are whole numbers are stored exactly, others without their fraction; an infinite first entry stops every copy."
  },
  {
   "property": "C130",
   "status": "partial",
   "theorems": [
    "C130_refuted",
    "C130_header_partial",
    "C130_open_partial"
   ],
   "note": "False after a table without closing line (C130_refuted). C130_header_partial: a header right after an unclosed gencost header raises ValueError in the two copies that take that line as a row. C130_open_partial: a row is stored in all the tables that are open, and in no other."
  },
  {
   "property": "C131",
   "status": "partial",
   "theorems": [
    "C131_settings_kept_partial",
    "C131_refuted",
    "C131_missing_section_partial"
   ],
   "note": "given settings and defaults proved for a present section (C131_settings_kept_partial) and for a missing one except for opf_type and opf_optimizer (C131_missing_section_partial); the full property is false: the defaults of the class differ from those of the reader (C131_refuted)"
  },
  {
   "property": "C132",
   "status": "proved",
   "theorems": [
    "C132_sections_read"
   ],
   "note": "dates are counted by an oracle (pandas.date_range)"
  },
  {
   "property": "C133",
   "status": "proved",
   "theorems": [
    "C133_catalogues",
    "C133_sizes"
   ],
   "note": ""
  },
  {
   "property": "C134",
   "status": "partial",
   "theorems": [
    "C134_costs_partial",
    "C134_catalogue_partial",
    "C134_refuted",
    "C134_file_partial"
   ],
   "note": "Holds for catalogues whose sizes differ pairwise; with repeated sizes every option gets the cost of the first (refuted)."
  },
  {
   "property": "C135",
   "status": "partial",
   "theorems": [
    "C135_series_partial",
    "C135_total_partial",
    "C135_refuted"
   ],
   "note": "The peak reactive load is that of the active load, and the other sheets are read at the position of the bus in the sheet of active loads (both refuted); the rest is proved. That the lists of zeros of a bus without load are one object is not modelled."
  },
  {
   "property": "C136",
   "status": "proved",
   "theorems": [
    "C136_peaks_agree"
   ],
   "note": ""
  },
  {
   "property": "C137",
   "status": "partial",
   "theorems": [
    "C137_report_all",
    "C137_report_total",
    "C137_years_refuted"
   ],
   "note": "Proved for up to four years; with more there is no report (refuted)."
  },
  {
   "property": "C138",
   "status": "partial",
   "theorems": [
    "C138_extremes_partial",
    "C138_refuted"
   ],
   "note": "With one path the report lists it twice (refuted)."
  },
  {
   "property": "C139",
   "status": "partial",
   "theorems": [
    "C139_refuted",
    "C139_only_tidied_partial",
    "C139_repeatable_partial"
   ],
   "note": "Refuted: values of at most 0.0001 are replaced in the table of the caller. Proved: nothing else changes and a second report is the same."
  },
  {
   "property": "C140",
   "status": "proved",
   "theorems": [
    "C140_recorded",
    "C140_investment",
    "C140_initial"
   ],
   "note": ""
  },
  {
   "property": "C141",
   "status": "partial",
   "theorems": [
    "C141_script_partial",
    "C141_refuted",
    "C141_too_long"
   ],
   "note": "Refuted: the places are shifted by one, so the script stops with an IndexError whenever the last node has a solution. What it does is proved for every tree."
  },
  {
   "property": "C142",
   "status": "partial",
   "theorems": [
    "C142_refuted",
    "C142_earlier_partial"
   ],
   "note": "Refuted: capacities add up over the clusters tried. Proved: if capacity never harms, no cluster tried before is feasible alone."
  },
  {
   "property": "C143",
   "status": "proved",
   "theorems": [
    "C143_whole_words",
    "C143_first_column"
   ],
   "note": "For the two copies that do not truncate (the truncating copy is C129); the file part is stated for the first column."
  },
  {
   "property": "C144",
   "status": "proved",
   "theorems": [
    "C144_rivers_of_node"
   ],
   "note": ""
  },
  {
   "property": "C145",
   "status": "partial",
   "theorems": [
    "C145_parallel_partial",
    "C145_parallel_refuted"
   ],
   "note": "Refuted: the lists have room for one river per pair of nodes, a second one stops with an IndexError. Proved: the network is built exactly if no two rivers join the same nodes."
  },
  {
   "property": "C146",
   "status": "proved",
   "theorems": [
    "C146_divided",
    "C146_network"
   ],
   "note": ""
  },
  {
   "property": "C147",
   "status": "partial",
   "theorems": [
    "C147_ramps_ignored",
    "C147_ramps_refuted",
    "C147_one_value_refuted"
   ],
   "note": "Refuted: the ramps are overwritten with ones before they are read. Proved: they never change the model; a single value stops with a ValueError if there are several rivers."
  },
  {
   "property": "C148",
   "status": "proved",
   "theorems": [
    "C148_pump_nodes"
   ],
   "note": ""
  },
  {
   "property": "C149",
   "status": "partial",
   "theorems": [
    "C149_balance",
    "C149_listed_twice_refuted"
   ],
   "note": "Proved for settings that name every input, output and storage node once; refuted for an input node named twice."
  },
  {
   "property": "C150",
   "status": "proved",
   "theorems": [
    "C150_conserved",
    "C150_cycle"
   ],
   "note": ""
  },
  {
   "property": "C151",
   "status": "proved",
   "theorems": [
    "C151_shares"
   ],
   "note": ""
  },
  {
   "property": "C152",
   "status": "partial",
   "theorems": [
    "C152_limits",
    "C152_manning",
    "C152_hard_limits_refuted"
   ],
   "note": "Proved: limits hold with one slack and without a penalty exactly. Refuted: without feasibility constraints the slack is still there."
  },
  {
   "property": "C153",
   "status": "partial",
   "theorems": [
    "C153_ramp_partial",
    "C153_feasibility_refuted"
   ],
   "note": "Proved without feasibility constraints: the change since the first time is at most the range of the last river, whichever river it is. Refuted with feasibility constraints: no ramp holds."
  },
  {
   "property": "C154",
   "status": "partial",
   "theorems": [
    "C154_storage",
    "C154_capacity",
    "C154_same_node_refuted"
   ],
   "note": "Proved for units at different nodes; refuted for two at the same node, of which the first is in no balance."
  },
  {
   "property": "C155",
   "status": "partial",
   "theorems": [
    "C155_links",
    "C155_no_links_refuted"
   ],
   "note": "Links hold as stated; without links the model is not built (UnboundLocalError, refuted)."
  },
  {
   "property": "C156",
   "status": "partial",
   "theorems": [
    "C156_outlets",
    "C156_no_river_refuted"
   ],
   "note": "Proved for output nodes with rivers; one without stops with an IndexError (refuted)."
  },
  {
   "property": "C157",
   "status": "proved",
   "theorems": [
    "C157_model"
   ],
   "note": ""
  },
  {
   "property": "C158",
   "status": "proved",
   "theorems": [
    "C158_leaving"
   ],
   "note": ""
  },
  {
   "property": "C159",
   "status": "proved",
   "theorems": [
    "C159_mixture"
   ],
   "note": "For rivers whose smallest and largest flow differ."
  },
  {
   "property": "C160",
   "status": "partial",
   "theorems": [
    "C160_pump_table_partial",
    "C160_delivery_refuted"
   ],
   "note": "The table of nodes drawn from is right; the one of nodes delivered to is filled at the nodes drawn from (refuted)."
  },
  {
   "property": "C161",
   "status": "partial",
   "theorems": [
    "C161_inputs",
    "C161_single_refuted"
   ],
   "note": "Fixed inputs and several series hold; the scenario of a single series is ignored (refuted)."
  },
  {
   "property": "C162",
   "status": "proved",
   "theorems": [
    "C162_buses",
    "C162_unknown"
   ],
   "note": ""
  },
  {
   "property": "C163",
   "status": "proved",
   "theorems": [
    "C163_cases",
    "C163_unknown"
   ],
   "note": "For listed cases; the flag for all branches is C166."
  },
  {
   "property": "C164",
   "status": "proved",
   "theorems": [
    "C164_bus_balance",
    "C164_default_profile"
   ],
   "note": "For listed security cases; the flag for all branches is C166."
  },
  {
   "property": "C165",
   "status": "partial",
   "theorems": [
    "C165_network_partial",
    "C165_no_network",
    "C165_pumps_refuted"
   ],
   "note": "Proved with the pump of each bus and, without network, for all pumps; with two pumps at a bus the first draws nothing (refuted)."
  },
  {
   "property": "C166",
   "status": "partial",
   "theorems": [
    "C166_flag_refuted",
    "C166_fixed_losses_refuted"
   ],
   "note": "Refuted for all networks: with SecurityFlag and a branch, and with cases but without estimated losses, the model cannot be built."
  },
  {
   "property": "C167",
   "status": "partial",
   "theorems": [
    "C167_flows",
    "C167_status_refuted"
   ],
   "note": "Laws and limits hold for all branches; the status of a branch is ignored (refuted)."
  },
  {
   "property": "C168",
   "status": "partial",
   "theorems": [
    "C168_losses",
    "C168_tight",
    "C168_beyond_refuted"
   ],
   "note": "Between the points of Loss_Param; beyond the last one losses are understated (refuted)."
  },
  {
   "property": "C169",
   "status": "partial",
   "theorems": [
    "C169_no_network_partial",
    "C169_flag_refuted"
   ],
   "note": "Without network; with network the setting is ignored (refuted)."
  },
  {
   "property": "C170",
   "status": "proved",
   "theorems": [
    "C170_limits"
   ],
   "note": "Without unit commitment and cooling water (C174, C180)."
  },
  {
   "property": "C171",
   "status": "partial",
   "theorems": [
    "C171_costs",
    "C171_pieces_refuted",
    "C171_long_piece_refuted",
    "C171_zero_refuted"
   ],
   "note": "Linear costs, points, and quadratic ones without a length of pieces; with a length that does not divide the capacity costs are understated, with a longer one they are 0, and a capacity of 0 stops the program (refuted)."
  },
  {
   "property": "C172",
   "status": "partial",
   "theorems": [
    "C172_square",
    "C172_cost_refuted"
   ],
   "note": "Refuted: the weight is counted twice; the bound with its square is proved for plants and farms."
  },
  {
   "property": "C173",
   "status": "partial",
   "theorems": [
    "C173_ramps",
    "C173_short_list_refuted"
   ],
   "note": "Ramps hold; a short list of ramps stops the program (refuted)."
  },
  {
   "property": "C174",
   "status": "proved",
   "theorems": [
    "C174_commitment"
   ],
   "note": "Without cooling water."
  },
  {
   "property": "C175",
   "status": "partial",
   "theorems": [
    "C175_times_partial",
    "C175_first_step_refuted",
    "C175_other_unit_refuted"
   ],
   "note": "For units whose switched predecessors have a minimum time too and after the first step; a unit without minimum time before it shifts the variables, and at the first step units cannot start or stop (refuted)."
  },
  {
   "property": "C176",
   "status": "partial",
   "theorems": [
    "C176_room",
    "C176_scenarios_refuted"
   ],
   "note": "Refuted; the scenarios that do have a model must fit into the binary variables."
  },
  {
   "property": "C177",
   "status": "partial",
   "theorems": [
    "C177_pumps",
    "C177_bus_refuted",
    "C177_position_refuted"
   ],
   "note": "Limits hold; the bus is taken for a position (refuted)."
  },
  {
   "property": "C178",
   "status": "partial",
   "theorems": [
    "C178_storage_refuted"
   ],
   "note": "Refuted for all settings with storage."
  },
  {
   "property": "C179",
   "status": "partial",
   "theorems": [
    "C179_baseload_partial",
    "C179_machines_refuted",
    "C179_weights_refuted"
   ],
   "note": "For steps of equal weight and some baseload of hydropower; baseload of machines alone is ignored, and unequal weights exclude constant output (refuted)."
  },
  {
   "property": "C180",
   "status": "partial",
   "theorems": [
    "C180_cooling_partial",
    "C180_types_refuted",
    "C180_profile_refuted"
   ],
   "note": "Without types; with types the temperatures of another machine, or none at all, may be used (refuted)."
  },
  {
   "property": "C181",
   "status": "partial",
   "theorems": [
    "C181_service_partial",
    "C181_total_partial",
    "C181_reserve_refuted"
   ],
   "note": "Bounds hold, for each service and all together, but the service keeps no capacity free (refuted)."
  },
  {
   "property": "C182",
   "status": "partial",
   "theorems": [
    "C182_shares_partial",
    "C182_direction_refuted",
    "C182_none_refuted"
   ],
   "note": "For flows along the branches; otherwise the shares do not add up (refuted)."
  },
  {
   "property": "C183",
   "status": "partial",
   "theorems": [
    "C183_farms_partial",
    "C183_support_refuted"
   ],
   "note": "The bound holds up to a service that any unit, and even the farms, can give; so the correction may change nothing (refuted)."
  },
  {
   "property": "C184",
   "status": "partial",
   "theorems": [
    "C184_built_partial",
    "C184_storage_refuted"
   ],
   "note": "Without storage, cooling, ancillary services and uncertain renewables; with storage no model is ever built (refuted)."
  },
  {
   "property": "C185",
   "status": "proved",
   "theorems": [
    "C185_scenario_weights"
   ],
   "note": ""
  },
  {
   "property": "C186",
   "status": "proved",
   "theorems": [
    "C186_tree",
    "C186_profiles"
   ],
   "note": ""
  },
  {
   "property": "C187",
   "status": "partial",
   "theorems": [
    "C187_hydro_partial",
    "C187_lone_refuted",
    "C187_zero_refuted"
   ],
   "note": "For several plants and numbers from 1; with one plant all inputs are set, and number 0 sets the last (refuted)."
  },
  {
   "property": "C188",
   "status": "partial",
   "theorems": [
    "C188_energy_partial",
    "C188_alternatives_refuted"
   ],
   "note": "Unless exactly one node is followed by alternatives; then they are not kept and a plant generates twice its energy (refuted)."
  },
  {
   "property": "C189",
   "status": "partial",
   "theorems": [
    "C189_expected_partial",
    "C189_twice",
    "C189_weights_refuted"
   ],
   "note": "As a lower bound without conventional machines and with steps of weight 1; other weights count twice (refuted)."
  },
  {
   "property": "C190",
   "status": "partial",
   "theorems": [
    "C190_input_partial",
    "C190_order_refuted",
    "C190_inputs_refuted"
   ],
   "note": "For inputs without pumps, with the plant of the same number; plants listed in another order generate more than is supplied, and with more inputs than plants there is no model (refuted)."
  },
  {
   "property": "C191",
   "status": "partial",
   "theorems": [
    "C191_pumped_partial"
   ],
   "note": "For the last of the pumps to a node."
  },
  {
   "property": "C192",
   "status": "partial",
   "theorems": [
    "C192_shifted",
    "C192_pump_refuted"
   ],
   "note": "Refuted: the power of the pump before is subtracted, as is shown for all answers."
  },
  {
   "property": "C193",
   "status": "partial",
   "theorems": [
    "C193_power",
    "C193_power_refuted"
   ],
   "note": "Refuted for every pump with efficiency below 1: the efficiency divides where it should multiply."
  },
  {
   "property": "C194",
   "status": "partial",
   "theorems": [
    "C194_river_partial",
    "C194_shared_refuted"
   ],
   "note": "For each plant alone; two plants at a node use the water twice (refuted)."
  },
  {
   "property": "C195",
   "status": "partial",
   "theorems": [
    "C195_output_partial",
    "C195_last_refuted",
    "C195_crowded_refuted"
   ],
   "note": "For the last plant and the last pump at an output, unless it is the last output and a plant is above a river, which removes the limit (refuted); more plants at outputs than outputs fail (refuted)."
  },
  {
   "property": "C196",
   "status": "partial",
   "theorems": [
    "C196_water_partial",
    "C196_energy_partial",
    "C196_steps_refuted"
   ],
   "note": "For steps of equal weight; otherwise water enters in light steps and leaves in heavy ones, and more is generated than supplied (refuted)."
  },
  {
   "property": "C197",
   "status": "proved",
   "theorems": [
    "C197_rivers"
   ],
   "note": ""
  },
  {
   "property": "C198",
   "status": "proved",
   "theorems": [
    "C198_generation",
    "C198_pumps",
    "C198_demand",
    "C198_curtailment"
   ],
   "note": ""
  },
  {
   "property": "C199",
   "status": "partial",
   "theorems": [
    "C199_network_partial",
    "C199_single_partial",
    "C199_scattered_refuted",
    "C199_hidden_refuted"
   ],
   "note": "With network: no SecurityFlag, pumps at different buses, curtailment allowed. Without: one loaded bus. Otherwise curtailment of another scenario or none is reported (refuted)."
  },
  {
   "property": "C200",
   "status": "proved",
   "theorems": [
    "C200_scenarios",
    "C200_steps",
    "C200_all"
   ],
   "note": ""
  },
  {
   "property": "C201",
   "status": "proved",
   "theorems": [
    "C201_spilled"
   ],
   "note": ""
  },
  {
   "property": "C202",
   "status": "partial",
   "theorems": [
    "C202_parts_partial",
    "C202_weights_refuted"
   ],
   "note": "For steps of weight 1; the components do not use the weights of the steps (refuted)."
  },
  {
   "property": "C203",
   "status": "partial",
   "theorems": [
    "C203_net_demand",
    "C203_parts",
    "C203_losses",
    "C203_net_demand_refuted"
   ],
   "note": "Refuted: the net demand with demand always fails, and the report of losses always stops the program."
  },
  {
   "property": "C204",
   "status": "partial",
   "theorems": [
    "C204_types",
    "C204_rural_refuted"
   ],
   "note": "Unless one type is given for all loads and it is rural, which fails (refuted)."
  },
  {
   "property": "C205",
   "status": "partial",
   "theorems": [
    "C205_length",
    "C205_kept",
    "C205_mean",
    "C205_day_partial",
    "C205_hours_refuted",
    "C205_constant_refuted",
    "C205_fails"
   ],
   "note": "For two steps only with 24 values; other lengths are accepted and lose values (refuted)."
  },
  {
   "property": "C206",
   "status": "partial",
   "theorems": [
    "C206_set_demand",
    "C206_ignored",
    "C206_zero_refuted"
   ],
   "note": "For profiles from 1; profile 0 fails (refuted)."
  },
  {
   "property": "C207",
   "status": "partial",
   "theorems": [
    "C207_set_res",
    "C207_overwritten",
    "C207_zero_refuted"
   ],
   "note": "For profiles from 1 and models with farms; profile 0 sets the last value (refuted)."
  },
  {
   "property": "C208",
   "status": "partial",
   "theorems": [
    "C208_off_partial",
    "C208_capacity_partial",
    "C208_others",
    "C208_on_refuted",
    "C208_farms_refuted"
   ],
   "note": "For conventional and hydropower units without cooling systems. Switching on divides the capacity by the base again and does not undo switching off, and farms ignore it (refuted)."
  },
  {
   "property": "C209",
   "status": "proved",
   "theorems": [
    "C209_lines",
    "C209_fails",
    "C209_capacity",
    "C209_all"
   ],
   "note": ""
  },
  {
   "property": "C210",
   "status": "partial",
   "theorems": [
    "C210_status",
    "C210_fails",
    "C210_first_refuted"
   ],
   "note": "For all elements but the first, whose status cannot be set (refuted)."
  },
  {
   "property": "C211",
   "status": "partial",
   "theorems": [
    "C211_marginal",
    "C211_fails",
    "C211_exact_refuted",
    "C211_flag",
    "C211_mean",
    "C211_empty"
   ],
   "note": "Rounding loses values below 1 (refuted); without sites the mean fails."
  },
  {
   "property": "C212",
   "status": "partial",
   "theorems": [
    "C212_consistent",
    "C212_capacity_refuted"
   ],
   "note": "For demand, renewable generation and lines; a change of capacity is lost (refuted)."
  },
  {
   "property": "C213",
   "status": "partial",
   "theorems": [
    "C213_surplus_partial",
    "C213_levels_refuted"
   ],
   "note": "Without rivers and for trees with one level, where the first node is reported; in deeper trees nothing is (refuted)."
  },
  {
   "property": "C214",
   "status": "partial",
   "theorems": [
    "C214_positions",
    "C214_again",
    "C214_order_refuted",
    "C214_loop_refuted"
   ],
   "note": "For networks whose lines have two different ends. The positions of the ends are those of its two buses but not in their order (refuted); a line between a bus and itself gets one position (refuted)."
  },
  {
   "property": "C215",
   "status": "partial",
   "theorems": [
    "C215_deletion",
    "C215_generators_refuted"
   ],
   "note": "For buses, lines and transformers; deleting a generator makes the buses lose the others of its kind (refuted)."
  },
  {
   "property": "C216",
   "status": "partial",
   "theorems": [
    "C216_partition",
    "C216_nothing",
    "C216_nothing_refuted"
   ],
   "note": "As soon as some element is in service; with nothing in service it fails (proved and refuted)."
  },
  {
   "property": "C217",
   "status": "proved",
   "theorems": [
    "C217_connected"
   ],
   "note": "For every order in which networkx lists the components."
  },
  {
   "property": "C218",
   "status": "proved",
   "theorems": [
    "C218_elements"
   ],
   "note": "For every order in which networkx lists the components."
  },
  {
   "property": "C219",
   "status": "proved",
   "theorems": [
    "C219_generators"
   ],
   "note": "For generators at a bus of the network."
  },
  {
   "property": "C220",
   "status": "proved",
   "theorems": [
    "C220_islands"
   ],
   "note": "For every order in which networkx lists the components."
  },
  {
   "property": "C221",
   "status": "proved",
   "theorems": [
    "C221_supernodes",
    "C221_status_refuted"
   ],
   "note": "Elements out of service join buses too (C221_status_refuted)."
  },
  {
   "property": "C222",
   "status": "partial",
   "theorems": [
    "C222_demand",
    "C222_bus",
    "C222_losses_refuted"
   ],
   "note": "For demand; losses of elements that become artificial lines are counted twice (refuted)."
  },
  {
   "property": "C223",
   "status": "proved",
   "theorems": [
    "C223_kept"
   ],
   "note": ""
  },
  {
   "property": "C224",
   "status": "partial",
   "theorems": [
    "C224_artificial",
    "C224_listing_refuted"
   ],
   "note": "For the artificial buses; the coupling buses do not list the artificial lines (refuted)."
  },
  {
   "property": "C225",
   "status": "partial",
   "theorems": [
    "C225_joined",
    "C225_status_refuted"
   ],
   "note": "By elements whether in service or not, and for first numbers above those in use; by elements in service it is false (refuted)."
  },
  {
   "property": "C226",
   "status": "partial",
   "theorems": [
    "C226_when",
    "C226_always_refuted"
   ],
   "note": "An exact condition: the level, a neighbour above for every part, and a line that stays; the level alone is not enough (refuted)."
  },
  {
   "property": "C227",
   "status": "partial",
   "theorems": [
    "C227_moved",
    "C227_kept_partial",
    "C227_kept_refuted"
   ],
   "note": "Generators of buses of the level stay when these buses are listed first; otherwise they may be moved (refuted)."
  },
  {
   "property": "C228",
   "status": "partial",
   "theorems": [
    "C228_entries",
    "C228_positions_refuted"
   ],
   "note": "For the new places and the ends; the old places are those after the removal, and those of lines and transformers are not told apart (refuted)."
  },
  {
   "property": "C229",
   "status": "partial",
   "theorems": [
    "C229_commands",
    "C229_refuted"
   ],
   "note": "For the lists of commands described, over exact numbers; other lists of commands stop the program (refuted)."
  },
  {
   "property": "C230",
   "status": "proved",
   "theorems": [
    "C230_tree"
   ],
   "note": "The simplex method itself is not modelled: the theorem is about the set of answers."
  },
  {
   "property": "C231",
   "status": "proved",
   "theorems": [
    "C231_end"
   ],
   "note": ""
  },
  {
   "property": "C232",
   "status": "partial",
   "theorems": [
    "C232_refuted"
   ],
   "note": "False for all data with an uncertain level after the first; C230 is the case without uncertainty."
  },
  {
   "property": "C233",
   "status": "partial",
   "theorems": [
    "C233_setters",
    "C233_refuted"
   ],
   "note": "True of inputs, outputs and weights; the links cannot be replaced and more nodes than links stop the program (refuted)."
  },
  {
   "property": "C234",
   "status": "proved",
   "theorems": [
    "C234_answers",
    "C234_service"
   ],
   "note": "Over exact numbers, with the data as a record; the simplex method is not modelled: the theorem is about the set of answers."
  },
  {
   "property": "C235",
   "status": "partial",
   "theorems": [
    "C235_conserved_partial",
    "C235_refuted"
   ],
   "note": "Proved with pumps and storage counted once for every bus, as the code does, and all buses in service; the statement itself is refuted."
  },
  {
   "property": "C236",
   "status": "partial",
   "theorems": [
    "C236_refuted",
    "C236_rise_partial"
   ],
   "note": "Refuted: the sign is the other way round. What is given is proved to be the rise of the energy stored."
  },
  {
   "property": "C237",
   "status": "partial",
   "theorems": [
    "C237_costs",
    "C237_refuted"
   ],
   "note": "The costs of the units are proved; the objective counts the hours twice (refuted)."
  },
  {
   "property": "C238",
   "status": "partial",
   "theorems": [
    "C238_refuted"
   ],
   "note": "Refuted for all data: the method called does not exist."
  },
  {
   "property": "C239",
   "status": "partial",
   "theorems": [
    "C239_limits",
    "C239_refuted"
   ],
   "note": "The condition is proved; that it holds whenever there is a plan is refuted."
  },
  {
   "property": "C240",
   "status": "partial",
   "theorems": [
    "C240_refuted",
    "C240_outputs"
   ],
   "note": "Refuted, for all networks with more devices than cases and by examples."
  },
  {
   "property": "C241",
   "status": "proved",
   "theorems": [
    "C241_joint"
   ],
   "note": "For at most 11 vectors or at most 10 days; see C244 for the others."
  },
  {
   "property": "C242",
   "status": "proved",
   "theorems": [
    "C242_water"
   ],
   "note": ""
  },
  {
   "property": "C243",
   "status": "proved",
   "theorems": [
    "C243_limits",
    "C243_no_times"
   ],
   "note": "For at most 11 vectors or at most 10 days; see C244 for the others."
  },
  {
   "property": "C244",
   "status": "partial",
   "theorems": [
    "C244_refuted"
   ],
   "note": "Refuted for all trees and networks with twelve vectors and eleven days; C241 holds below."
  },
  {
   "property": "C245",
   "status": "partial",
   "theorems": [
    "C245_refuted"
   ],
   "note": "Refuted for all networks with renewable units."
  },
  {
   "property": "C246",
   "status": "partial",
   "theorems": [
    "C246_refuted"
   ],
   "note": "Refuted by an example: a unit without a vector."
  },
  {
   "property": "C247",
   "status": "partial",
   "theorems": [
    "C247_balance_partial"
   ],
   "note": "The rows are exact; missing: that the whole problem with these rows is built and solved."
  },
  {
   "property": "C248",
   "status": "proved",
   "theorems": [
    "C248_options"
   ],
   "note": ""
  },
  {
   "property": "C249",
   "status": "proved",
   "theorems": [
    "C249_elements",
    "C249_titles_in_any_case",
    "C249_ids"
   ],
   "note": ""
  },
  {
   "property": "C250",
   "status": "partial",
   "theorems": [
    "C250_element_refuted"
   ],
   "note": "Refuted for all elements without a parameter."
  },
  {
   "property": "C251",
   "status": "partial",
   "theorems": [
    "C251_columns_refuted"
   ],
   "note": "Refuted for three columns, whatever the sheet."
  },
  {
   "property": "C252",
   "status": "proved",
   "theorems": [
    "C252_tree"
   ],
   "note": ""
  },
  {
   "property": "C253",
   "status": "partial",
   "theorems": [
    "C253_update_refuted"
   ],
   "note": "Refuted for all levels that are read twice."
  },
  {
   "property": "C254",
   "status": "partial",
   "theorems": [
    "C254_blocks_refuted"
   ],
   "note": "Refuted for all pairs of blocks without an empty cell between them."
  },
  {
   "property": "C255",
   "status": "proved",
   "theorems": [
    "C255_profiles"
   ],
   "note": ""
  },
  {
   "property": "C256",
   "status": "proved",
   "theorems": [
    "C256_option",
    "C256_not_wanted",
    "C256_use"
   ],
   "note": ""
  },
  {
   "property": "C257",
   "status": "partial",
   "theorems": [
    "C257_groups_refuted"
   ],
   "note": "Refuted for all lists of profiles that fit the parameters."
  },
  {
   "property": "C258",
   "status": "partial",
   "theorems": [
    "C258_group_refuted"
   ],
   "note": "Refuted for all groups."
  },
  {
   "property": "C259",
   "status": "partial",
   "theorems": [
    "C259_number_refuted"
   ],
   "note": "Refuted for all numbers."
  },
  {
   "property": "C260",
   "status": "partial",
   "theorems": [
    "C260_twice_refuted"
   ],
   "note": "Refuted for all pairs of profiles about a parameter."
  },
  {
   "property": "C261",
   "status": "partial",
   "theorems": [
    "C261_no_element",
    "C261_element_refuted"
   ],
   "note": "Refuted for all profiles of all elements followed by those of one."
  },
  {
   "property": "C262",
   "status": "proved",
   "theorems": [
    "C262_connections",
    "C262_variables"
   ],
   "note": ""
  },
  {
   "property": "C263",
   "status": "partial",
   "theorems": [
    "C263_single_refuted"
   ],
   "note": "Refuted for all sheets of connections of single elements."
  },
  {
   "property": "C264",
   "status": "partial",
   "theorems": [
    "C264_sheets_refuted"
   ],
   "note": "Refuted for all pairs of sheets."
  },
  {
   "property": "C265",
   "status": "partial",
   "theorems": [
    "C265_order_refuted"
   ],
   "note": "Refuted for sheets of connections; C268 holds without them."
  },
  {
   "property": "C266",
   "status": "partial",
   "theorems": [
    "C266_paths_refuted"
   ],
   "note": "Refuted for all workbooks with a path."
  },
  {
   "property": "C267",
   "status": "partial",
   "theorems": [
    "C267_variable_refuted"
   ],
   "note": "Refuted for all sheets whose first key is a variable."
  },
  {
   "property": "C268",
   "status": "proved",
   "theorems": [
    "C268_order"
   ],
   "note": ""
  },
  {
   "property": "C269",
   "status": "proved",
   "theorems": [
    "C269_written"
   ],
   "note": ""
  },
  {
   "property": "C270",
   "status": "partial",
   "theorems": [
    "C270_units_partial",
    "C270_units_refuted"
   ],
   "note": "Refuted; the partial theorem gives what is written, for all networks."
  },
  {
   "property": "C271",
   "status": "partial",
   "theorems": [
    "C271_lost_partial",
    "C271_lost_refuted"
   ],
   "note": "Refuted; the partial theorem lists all data the file depends on."
  },
  {
   "property": "C272",
   "status": "partial",
   "theorems": [
    "C272_costs_partial",
    "C272_costs_refuted"
   ],
   "note": "Refuted for all networks with a generator without cost coefficients."
  },
  {
   "property": "C273",
   "status": "partial",
   "theorems": [
    "C273_status_partial",
    "C273_status_refuted",
    "C273_boolean_limits"
   ],
   "note": "Refuted for all networks with a generator with a Boolean status."
  },
  {
   "property": "C274",
   "status": "partial",
   "theorems": [
    "C274_cut_partial",
    "C274_cut_refuted"
   ],
   "note": "Refuted for all networks with a generator without a limit of active power."
  },
  {
   "property": "C275",
   "status": "partial",
   "theorems": [
    "C275_last_cost_partial",
    "C275_last_cost_refuted"
   ],
   "note": "Refuted for all networks with a floating-point last cost coefficient."
  },
  {
   "property": "C276",
   "status": "proved",
   "theorems": [
    "C276_raw_file_read",
    "C276_version"
   ],
   "note": "For files of any size; reactances of three-winding transformers are positive (C281, C282 for the others)."
  },
  {
   "property": "C277",
   "status": "partial",
   "theorems": [
    "C277_no_two_windings",
    "C277_no_three_windings",
    "C277_only_transformers_refuted"
   ],
   "note": "Refuted for all files without transformers of a kind."
  },
  {
   "property": "C278",
   "status": "partial",
   "theorems": [
    "C278_one_bus",
    "C278_no_bus",
    "C278_every_number_of_buses_refuted"
   ],
   "note": "Refuted for all files with a single bus or none."
  },
  {
   "property": "C279",
   "status": "partial",
   "theorems": [
    "C279_short_file",
    "C279_section_found_refuted",
    "C279_lines_before"
   ],
   "note": "Refuted for all files with at most 14553 lines; the rows depend on the first line and the lines from there on only."
  },
  {
   "property": "C280",
   "status": "proved",
   "theorems": [
    "C280_star_buses_new"
   ],
   "note": ""
  },
  {
   "property": "C281",
   "status": "partial",
   "theorems": [
    "C281_least_zero",
    "C281_no_reactance_refuted"
   ],
   "note": "Refuted for all files with such a transformer at any position."
  },
  {
   "property": "C282",
   "status": "partial",
   "theorems": [
    "C282_negative_unlimited",
    "C282_limited_refuted"
   ],
   "note": "Refuted for all files with such a transformer."
  },
  {
   "property": "C283",
   "status": "partial",
   "theorems": [
    "C283_winding_base_unused",
    "C283_code_three_refuted"
   ],
   "note": "Refuted: files that differ in the base of the windings only give equal rows."
  },
  {
   "property": "C284",
   "status": "partial",
   "theorems": [
    "C284_other_version_read",
    "C284_version_rejected_refuted"
   ],
   "note": "Refuted for all other versions."
  },
  {
   "property": "C285",
   "status": "partial",
   "theorems": [
    "C285_comma_in_name",
    "C285_name_refuted"
   ],
   "note": "Refuted for all names with one comma at any position."
  },
  {
   "property": "C286",
   "status": "proved",
   "theorems": [
    "C286_buses"
   ],
   "note": "All networks whose parts belong together."
  },
  {
   "property": "C287",
   "status": "partial",
   "theorems": [
    "C287_set_points",
    "C287_refuted"
   ],
   "note": "Refuted; the set point of every bus is stated (VM or 0)."
  },
  {
   "property": "C288",
   "status": "proved",
   "theorems": [
    "C288_conventional"
   ],
   "note": "All conventional generators."
  },
  {
   "property": "C289",
   "status": "partial",
   "theorems": [
    "C289_names",
    "C289_res",
    "C289_refuted"
   ],
   "note": "Refuted: names have no gap exactly when all generators are conventional; data of RES generators proved."
  },
  {
   "property": "C290",
   "status": "proved",
   "theorems": [
    "C290_branches"
   ],
   "note": "All branches; the base is taken not to be 0."
  },
  {
   "property": "C291",
   "status": "proved",
   "theorems": [
    "C291_unknown_bus"
   ],
   "note": "All networks that are otherwise sound."
  },
  {
   "property": "C292",
   "status": "partial",
   "theorems": [
    "C292_loads_partial",
    "C292_refuted"
   ],
   "note": "Proved for buses numbered by their positions, refuted otherwise."
  },
  {
   "property": "C293",
   "status": "partial",
   "theorems": [
    "C293_no_load",
    "C293_refuted"
   ],
   "note": "Refuted for all buses without active demand."
  },
  {
   "property": "C294",
   "status": "partial",
   "theorems": [
    "C294_tables_partial"
   ],
   "note": "Proved without hydropower and RES and with buses numbered by positions; C295 shows both are needed."
  },
  {
   "property": "C295",
   "status": "partial",
   "theorems": [
    "C295_refuted",
    "C295_numbers"
   ],
   "note": "Refuted for all networks with hydropower or RES, and for all with a missing number."
  },
  {
   "property": "C296",
   "status": "partial",
   "theorems": [
    "C296_cost",
    "C296_not_of_p",
    "C296_refuted"
   ],
   "note": "Refuted; the cost is proved to be that of the reactive power."
  },
  {
   "property": "C297",
   "status": "partial",
   "theorems": [
    "C297_last_step",
    "C297_unbound",
    "C297_refuted"
   ],
   "note": "Refuted; the objective is proved to be that of the last time step."
  },
  {
   "property": "C298",
   "status": "partial",
   "theorems": [
    "C298_opened",
    "C298_closed_refuted"
   ],
   "note": "Opening proved for all outputs; closing refuted for all outputs without HDF5."
  },
  {
   "property": "C299",
   "status": "proved",
   "theorems": [
    "C299_tables"
   ],
   "note": "All outputs of the optimal power flow with different names; values told apart by hour and ID, IDs that are no titles (C302, C304 show both are needed)."
  },
  {
   "property": "C300",
   "status": "partial",
   "theorems": [
    "C300_again_refuted"
   ],
   "note": "Refuted for all names, places and values."
  },
  {
   "property": "C301",
   "status": "partial",
   "theorems": [
    "C301_no_id_refuted"
   ],
   "note": "Refuted for all values with one that has no ID; C299 proves the end for described values."
  },
  {
   "property": "C302",
   "status": "partial",
   "theorems": [
    "C302_same_refuted"
   ],
   "note": "Refuted for all pairs of different values."
  },
  {
   "property": "C303",
   "status": "partial",
   "theorems": [
    "C303_tree_refuted",
    "C303_exception"
   ],
   "note": "Refuted for all outputs and values."
  },
  {
   "property": "C304",
   "status": "partial",
   "theorems": [
    "C304_title_refuted",
    "C304_hour_refuted"
   ],
   "note": "Refuted, in two ways."
  },
  {
   "property": "C305",
   "status": "partial",
   "theorems": [
    "C305_nameless_refuted"
   ],
   "note": "Refuted for values without a name."
  },
  {
   "property": "C306",
   "status": "proved",
   "theorems": [
    "C306_outputs",
    "C306_no_end"
   ],
   "note": "Sheets of blocks with gaps; blocks without an end."
  },
  {
   "property": "C307",
   "status": "partial",
   "theorems": [
    "C307_case_refuted",
    "C307_known_refuted"
   ],
   "note": "Refuted for all texts, in two ways."
  },
  {
   "property": "C308",
   "status": "partial",
   "theorems": [
    "C308_variable_refuted"
   ],
   "note": "Refuted for all sheets with such a row."
  },
  {
   "property": "C309",
   "status": "proved",
   "theorems": [
    "C309_to_workbook"
   ],
   "note": "All sheets of outputs."
  },
  {
   "property": "C310",
   "status": "proved",
   "theorems": [
    "C310_functions"
   ],
   "note": "Blocks with one or more single titles and a list at the end; C311 and C312 are the other blocks."
  },
  {
   "property": "C311",
   "status": "partial",
   "theorems": [
    "C311_single_refuted"
   ],
   "note": "Refuted for all sheets whose first block has one known title."
  },
  {
   "property": "C312",
   "status": "partial",
   "theorems": [
    "C312_no_list_refuted"
   ],
   "note": "Refuted for all blocks of single titles."
  },
  {
   "property": "C313",
   "status": "partial",
   "theorems": [
    "C313_correlate",
    "C313_unknown",
    "C313_bus_refuted"
   ],
   "note": "Proved when the parameters with the ID agree or there are none; refuted for a bus and generators with one ID."
  },
  {
   "property": "C314",
   "status": "proved",
   "theorems": [
    "C314_losses",
    "C314_zero_base"
   ],
   "note": "Transformers of two windings; codes 2 and 3."
  },
  {
   "property": "C315",
   "status": "partial",
   "theorems": [
    "C315_short_row_refuted"
   ],
   "note": "Refuted for all such rows."
  },
  {
   "property": "C316",
   "status": "partial",
   "theorems": [
    "C316_order_refuted"
   ],
   "note": "Refuted for all such titles."
  },
  {
   "property": "C317",
   "status": "proved",
   "theorems": [
    "C317_hydro",
    "C317_negative"
   ],
   "note": "All options."
  },
  {
   "property": "C318",
   "status": "proved",
   "theorems": [
    "C318_pumps"
   ],
   "note": "All options and settings before."
  },
  {
   "property": "C319",
   "status": "partial",
   "theorems": [
    "C319_res_refuted",
    "C319_none"
   ],
   "note": "Refuted for all numbers above 0; proved for 0."
  },
  {
   "property": "C320",
   "status": "partial",
   "theorems": [
    "C320_baseline",
    "C320_ignored_refuted",
    "C320_two_baseloads"
   ],
   "note": "Baseline proved; the other options refuted for all values."
  },
  {
   "property": "C321",
   "status": "partial",
   "theorems": [
    "C321_sec_refuted",
    "C321_none"
   ],
   "note": "Refuted for all texts that are not empty; proved without the option."
  },
  {
   "property": "C322",
   "status": "proved",
   "theorems": [
    "C322_losses"
   ],
   "note": "All options of run-n and run-en."
  },
  {
   "property": "C323",
   "status": "proved",
   "theorems": [
    "C323_solver"
   ],
   "note": "All commands and options."
  },
  {
   "property": "C324",
   "status": "partial",
   "theorems": [
    "C324_profile_refuted"
   ],
   "note": "Refuted."
  },
  {
   "property": "C325",
   "status": "partial",
   "theorems": [
    "C325_run_res_refuted"
   ],
   "note": "Refuted for all options."
  },
  {
   "property": "C326",
   "status": "proved",
   "theorems": [
    "C326_files"
   ],
   "note": "All names and commands."
  },
  {
   "property": "C327",
   "status": "partial",
   "theorems": [
    "C327_no_subscript_refuted",
    "C327_empty_place_refuted"
   ],
   "note": "Refuted in two ways; C299 has the positive part."
  },
  {
   "property": "C328",
   "status": "partial",
   "theorems": [
    "C328_nameless_refuted"
   ],
   "note": "Refuted for all such outputs."
  },
  {
   "property": "C329",
   "status": "partial",
   "theorems": [
    "C329_first_refuted",
    "C329_later_refuted"
   ],
   "note": "Refuted in two ways; C310 has the positive part."
  },
  {
   "property": "C330",
   "status": "proved",
   "theorems": [
    "C330_settings"
   ],
   "note": "All commands and options."
  },
  {
   "property": "C331",
   "status": "partial",
   "theorems": [
    "C331_name",
    "C331_no_folder_refuted",
    "C331_folder_refuted",
    "C331_separators",
    "C331_relative_refuted"
   ],
   "note": "Proved for all paths with a folder and a dot; refuted for the others."
  },
  {
   "property": "C332",
   "status": "partial",
   "theorems": [
    "C332_path_refuted",
    "C332_no_plan_refuted",
    "C332_key_error",
    "C332_years"
   ],
   "note": "Refuted for all paths and such plans."
  },
  {
   "property": "C333",
   "status": "proved",
   "theorems": [
    "C333_same_answers"
   ],
   "note": "All well-formed networks and settings."
  },
  {
   "property": "C334",
   "status": "partial",
   "theorems": [
    "C334_reactive_refuted",
    "C334_active_partial"
   ],
   "note": "Proved for active demand; refuted for reactive demand."
  },
  {
   "property": "C335",
   "status": "proved",
   "theorems": [
    "C335_file"
   ],
   "note": "All screening results with one nonnegative value per branch."
  },
  {
   "property": "C336",
   "status": "proved",
   "theorems": [
    "C336_inputs"
   ],
   "note": "All well-formed networks."
  },
  {
   "property": "C337",
   "status": "partial",
   "theorems": [
    "C337_rows_partial",
    "C337_large_refuted"
   ],
   "note": "Proved for scenarios from 0 to 1000; refuted above."
  },
  {
   "property": "C338",
   "status": "partial",
   "theorems": [
    "C338_costs_partial",
    "C338_order_refuted",
    "C338_first_refuted"
   ],
   "note": "Proved for ordered scenarios from 0; refuted for other orders and for scenarios counted from 1."
  },
  {
   "property": "C339",
   "status": "proved",
   "theorems": [
    "C339_saved_iff"
   ],
   "note": "All plans with scenarios from 0 to 1000."
  },
  {
   "property": "C340",
   "status": "partial",
   "theorems": [
    "C340_summary_partial",
    "C340_glpk_refuted",
    "C340_folder_refuted",
    "C340_again_refuted",
    "C340_others"
   ],
   "note": "Proved for both folders and runs by pyomo; refuted for runs by GLPK, for one folder and for repeated numbers."
  },
  {
   "property": "C341",
   "status": "proved",
   "theorems": [
    "C341_profiles"
   ],
   "note": "All lists and sizes."
  },
  {
   "property": "C342",
   "status": "proved",
   "theorems": [
    "C342_components"
   ],
   "note": "All models, answers and choices of components."
  },
  {
   "property": "C343",
   "status": "partial",
   "theorems": [
    "C343_rows_partial",
    "C343_losses_refuted"
   ],
   "note": "Proved with a network, curtailment and no losses, for at most as many scenarios as instances; refuted with losses."
  }
 ]
}