{"id": "C01", "title": "A dictionary-mode container is an insertion-ordered map", "statement": "After create_dictionary(), whatever sequence of append/[]=/pop/extend is applied, get(k) and [k] return the value most recently written for k and not popped since, [k] and pop(k) raise KeyError exactly when there is none, len() is the number of live keys, and iteration yields every live key once.", "quantifier": "for every finite history of container operations, every key and every value", "why_tests_cant": "the state space of operation histories is infinite; a test fixes one history", "anchors": ["pyensys/DataContainersInterface/AbstractDataContainer.py::AbstractDataContainer.append/get/__getitem__/__setitem__/pop/extend/__len__/__iter__"]}
{"id": "C02", "title": "A list-mode container with distinct keys behaves like the dictionary-mode one", "statement": "If a client never appends a key that is already present, a list-mode container and a dictionary-mode container fed with the same history give the same get, len, iteration and pop results at every step.", "quantifier": "for every history in which append is used only with absent keys", "why_tests_cant": "the planner switches freely between the two representations; agreement is needed for all histories", "anchors": ["pyensys/DataContainersInterface/AbstractDataContainer.py::AbstractDataContainer"]}
{"id": "C03", "title": "append/pop on a list-mode container is LIFO per key", "statement": "In list mode append(k,v) followed by pop(k) returns v and leaves the container exactly as it was, even if k was already present; pop of an absent key raises KeyError and changes nothing; get(k) returns the oldest value of k.", "quantifier": "for every container content (duplicate keys included), key and value", "why_tests_cant": "back-tracking in the planner relies on exact restoration from any state", "anchors": ["pyensys/DataContainersInterface/AbstractDataContainer.py::AbstractDataContainer.append/pop/get", "pyensys/Optimisers/RecursiveFunction.py::_return_to_previous_state"]}
{"id": "C04", "title": "Containment is a preorder and means 'prefix' on graph paths", "statement": "`a in b` between containers of one kind is reflexive and transitive; for graph paths (list containers keyed \"0\",\"1\",...) it holds exactly when a's node sequence is a prefix of b's.", "quantifier": "for all containers / all node sequences of any length", "why_tests_cant": "the incumbent bookkeeping (is this path stored? is it a descendant?) is decided by this test for paths of every length", "anchors": ["pyensys/DataContainersInterface/AbstractDataContainer.py::__contains__/_compare_lists/_compare_dictionaries", "pyensys/Optimisers/RecursiveFunction.py::check_if_candidate_path_has_been_stored_in_incumbent"]}
{"id": "C05", "title": "`!=` is the negation of `==`", "statement": "For any two containers, a == b and a != b either both raise TypeError or return opposite booleans.", "quantifier": "for every pair of containers in every mode, including never-created ones", "why_tests_cant": "requires a case analysis over all pairs of internal states", "anchors": ["pyensys/DataContainersInterface/AbstractDataContainer.py::__eq__/__ne__"]}
{"id": "C06", "title": "Container difference removes exactly the common items", "statement": "difference_abstract_data_containers(a,b) returns the items of a, in order, that do not occur (same key and equal value) in b, leaves a and b unchanged, and raises TypeError when the modes differ.", "quantifier": "for all pairs of containers (dictionary or list mode) of any size", "why_tests_cant": "set-algebra law over unbounded containers", "anchors": ["pyensys/DataContainersInterface/OperationsAbstractDataContainer.py::difference_abstract_data_containers"]}
{"id": "C07", "title": "Iterating a container visits every item once, even when loops nest", "statement": "A `for k, v in c` loop visits each item exactly once in order, no matter what read-only use (including another loop over the same container) its body makes of c.", "quantifier": "for every container and every nesting of loops over it", "why_tests_cant": "interference between live iterators depends on the interleaving of next() calls", "anchors": ["pyensys/DataContainersInterface/AbstractDataContainer.py::__iter__/__next__"]}
{"id": "C08", "title": "Extending a container copies the items", "statement": "After a.extend(b), later assignments a[k]=v never change what b returns, and vice versa.", "quantifier": "for all list- and dictionary-mode containers and all later assignments", "why_tests_cant": "aliasing is only visible through later writes along some history", "anchors": ["pyensys/DataContainersInterface/AbstractDataContainer.py::extend/__setitem__"]}
{"id": "C09", "title": "The intervention pool numbers every configured intervention once", "statement": "Initialising the planner creates one pool entry per configured (cost, position, installation time, capacity) tuple, in configuration order across groups, with keys \"0\",\"1\",...; no two entries share a key, and surplus entries of longer columns are dropped.", "quantifier": "for every list of configured binary-variable groups", "why_tests_cant": "key uniqueness over all configurations underlies all later set arithmetic", "anchors": ["pyensys/Optimisers/RecursiveFunction.py::RecursiveFunction._create_pool_interventions"]}
{"id": "C10", "title": "Available interventions are exactly those not yet used", "statement": "At every moment of the search the interventions offered for selection are exactly the pool entries that are neither in a previous stage of the candidate nor newly selected, in pool order; hence no plan uses an intervention twice.", "quantifier": "for every pool with distinct keys and every candidate drawn from it", "why_tests_cant": "set invariant over all search states", "anchors": ["pyensys/Optimisers/RecursiveFunction.py::_calculate_available_interventions", "pyensys/Optimisers/NonAnticipativeRecursiveFunction.py::_interventions_handler"]}
{"id": "C11", "title": "Every non-empty subset of available interventions is tried exactly once", "statement": "The size-by-size enumeration of combinations visits every non-empty sub-selection of the available interventions exactly once, 2^n - 1 in all.", "quantifier": "for every list of available interventions", "why_tests_cant": "holds for every n; tests use n<=3", "anchors": ["pyensys/Optimisers/RecursiveFunction.py::_calculate_all_combinations", "pyensys/Optimisers/NonAnticipativeRecursiveFunction.py::_interventions_handler/_optimise_interventions_in_last_node"]}
{"id": "C12", "title": "Search back-tracks exactly", "statement": "A call of solve on any node, whatever happens below it, leaves candidate path, candidate interventions, candidate operating costs and current node as they were, clears the new interventions, and leaves the level one lower.", "quantifier": "for every control tree, pool, OPF outcome and entry state", "why_tests_cant": "invariant over an unbounded recursive search with data-dependent early exits", "anchors": ["pyensys/Optimisers/NonAnticipativeRecursiveFunction.py::NonAnticipativeRecursiveFunction.solve/_exploration_of_current_solution/_exploration_of_successors/_optimise_interventions_in_last_node"]}
{"id": "C13", "title": "Remaining construction times are restored by the search", "statement": "solve leaves the remaining construction time of every already selected intervention unchanged.", "quantifier": "for every control tree, pool and OPF outcome", "why_tests_cant": "the leak appears only after visiting leaves in a particular order", "anchors": ["pyensys/Optimisers/NonAnticipativeRecursiveFunction.py::solve/update_remaining_construction_time"]}
{"id": "C14", "title": "An intervention serves only after its construction time", "statement": "Whenever the OPF is run for a node, the interventions put in service are exactly those selected on the current path whose installation time does not exceed the years elapsed between the stage where they were selected and the node's stage.", "quantifier": "for every tree, pool with arbitrary installation times, and OPF outcome", "why_tests_cant": "depends on the whole visit history, not just the current node", "anchors": ["pyensys/Optimisers/NonAnticipativeRecursiveFunction.py::_get_interventions_ready_to_operate_in_opf/solve"]}
{"id": "C15", "title": "Stored plans are root-to-leaf paths", "statement": "Every investment path the planner stores (incumbent, partial tree, complete tree) is a path of the control tree from the node where the search started to a leaf, following edges.", "quantifier": "for every control tree, pool and OPF outcome", "why_tests_cant": "invariant of an unbounded search", "anchors": ["pyensys/Optimisers/NonAnticipativeRecursiveFunction.py::_append_candidate_in_incumbent_list/_replace_solution_in_incumbent_list/_store_complete_tree"]}
{"id": "C16", "title": "Stored plans were verified feasible", "statement": "For every stored plan and every node on its path, the OPF at that node with exactly the interventions selected up to that stage was feasible (immediately available interventions).", "quantifier": "for every tree, pool with non-positive installation times and OPF behaviour", "why_tests_cant": "soundness over all searches; a test can only sample OPF behaviours", "anchors": ["pyensys/Optimisers/NonAnticipativeRecursiveFunction.py::_check_feasibility_of_current_solution/_construction_of_solution"]}
{"id": "C17", "title": "Stored costs are the discounted costs of the stored plan", "statement": "The investment and operation cost reported with a plan equal the sum over stages of the stage cost (intervention costs, resp. 365 x OPF cost) multiplied by 1/(1-r)^(years since the first stage).", "quantifier": "for every tree, pool, return rate and OPF costs", "why_tests_cant": "accounting identity over all searches and replacements", "anchors": ["pyensys/Optimisers/NonAnticipativeRecursiveFunction.py::_calculate_investment_cost/_calculate_opteration_cost/_append_candidate_in_incumbent_list/_replace_solution_in_incumbent_list"]}
{"id": "C18", "title": "Incumbent tables stay aligned and the search never crashes", "statement": "On a well-formed problem (finite tree, a planning year for each stage, return rate other than 100 %) solve terminates without raising, and the four incumbent tables (paths, interventions, investment costs, operation costs) always list the same keys in the same order; likewise for partial and complete trees.", "quantifier": "for every well-formed problem and OPF behaviour", "why_tests_cant": "absence of KeyError/AssertionError/TypeError over all reachable states", "anchors": ["pyensys/Optimisers/NonAnticipativeRecursiveFunction.py::solve", "pyensys/Optimisers/RecursiveFunction.py::InvestmentPlanData.is_empty"]}
{"id": "C19", "title": "Incumbent keys stay distinct", "statement": "Eliminating the descendants of a path from the incumbent and renumbering leaves the incumbent keys pairwise distinct (so that a later lookup by key addresses one plan).", "quantifier": "for every incumbent with distinct keys and every candidate path", "why_tests_cant": "collisions appear only for particular deletion patterns", "anchors": ["pyensys/Optimisers/NonAnticipativeRecursiveFunction.py::_renumber_keys_in_incumbent/_determine_keys_to_be_renumbered/_eliminate_offsprings_of_candidate_in_incumbent"]}
{"id": "C20", "title": "Elimination removes exactly the descendants", "statement": "Eliminating the offspring of the candidate path removes exactly the stored plans whose path extends the candidate path and keeps every other plan with its interventions and costs.", "quantifier": "for every incumbent with distinct keys and every candidate path", "why_tests_cant": "quantifies over all incumbents", "anchors": ["pyensys/Optimisers/NonAnticipativeRecursiveFunction.py::_eliminate_offsprings_of_candidate_in_incumbent"]}
{"id": "C21", "title": "A reported tree covers every node", "statement": "Whenever a complete tree is stored, its paths together visit every node of the control tree.", "quantifier": "for every problem and OPF behaviour", "why_tests_cant": "global invariant of the search", "anchors": ["pyensys/Optimisers/NonAnticipativeRecursiveFunction.py::_check_if_all_nodes_in_tree_have_been_visited/_replacement_of_investments_for_whole_tree"]}
{"id": "C22", "title": "Reported tree cost never increases", "statement": "During the search the total planning cost of the stored complete tree never increases once a tree has been stored.", "quantifier": "for every problem and every step of the search", "why_tests_cant": "monotonicity along all executions", "anchors": ["pyensys/Optimisers/NonAnticipativeRecursiveFunction.py::_replacement_of_investments_for_whole_tree/_calculate_total_planning_cost"]}
{"id": "C23", "title": "Reported plans are non-anticipative", "statement": "Two plans of the reported complete tree that share a node have taken the same interventions up to and including that node.", "quantifier": "for every control tree, pool and OPF behaviour", "why_tests_cant": "depends on how alternative sub-trees are mixed over the whole search", "anchors": ["pyensys/Optimisers/NonAnticipativeRecursiveFunction.py::solve/_store_partial_tree/_interventions_handler"]}
{"id": "C24", "title": "Leaf decisions are optimal for the current candidate", "statement": "After a leaf has been processed from an empty incumbent, the plan stored for its path is no dearer than the plan obtained with any feasible selection of immediately available interventions at that leaf.", "quantifier": "for every candidate, pool, OPF behaviour and leaf", "why_tests_cant": "optimality over all subsets", "anchors": ["pyensys/Optimisers/NonAnticipativeRecursiveFunction.py::_optimise_interventions_in_last_node/_optimality_check"]}
{"id": "C25", "title": "The reported tree is optimal", "statement": "If the planner reports a complete tree, no feasible non-anticipative assignment of interventions to nodes has a lower total planning cost.", "quantifier": "for every control tree, pool and OPF behaviour", "why_tests_cant": "global optimality quantifies over all alternative plans", "anchors": ["pyensys/Optimisers/NonAnticipativeRecursiveFunction.py::solve"]}
{"id": "C26", "title": "A feasible problem yields a plan", "statement": "If operating without any intervention is feasible at every node, the planner reports a complete tree.", "quantifier": "for every control tree and pool", "why_tests_cant": "liveness over all inputs", "anchors": ["pyensys/Optimisers/NonAnticipativeRecursiveFunction.py::solve/_optimality_check", "pyensys/managers/GeneralManager.py::main_access_function"]}
{"id": "C27", "title": "solve reports feasibility truthfully", "statement": "solve returns True for a node exactly when some selection of interventions makes every node below it feasible.", "quantifier": "for every tree, pool and OPF behaviour", "why_tests_cant": "equivalence over all inputs", "anchors": ["pyensys/Optimisers/NonAnticipativeRecursiveFunction.py::solve/_interventions_handler/_exploration_of_successors"]}
{"id": "C28", "title": "Solution tables give one cost per scenario", "statement": "get_solution returns, for each scenario, exactly one investment cost and one operation cost.", "quantifier": "for every complete tree and node data", "why_tests_cant": "depends on how scenarios were merged and duplicated in the tree", "anchors": ["pyensys/Optimisers/NonAnticipativeRecursiveFunction.py::get_solution", "pyensys/Optimisers/ControlGraphsCreator.py::GraphtoTreeConverter"]}
{"id": "C29", "title": "The anticipative planner delivers a solution", "statement": "With non_anticipative=False the base planner's solve stores a plan for a feasible problem and main_access_function returns it.", "quantifier": "for every feasible problem", "why_tests_cant": "needs all inputs: the failing statement is reached on every feasible leaf", "anchors": ["pyensys/Optimisers/RecursiveFunction.py::RecursiveFunction.solve/_calculate_investment_cost", "pyensys/managers/GeneralManager.py::main_access_function"]}
{"id": "C30", "title": "Scenarios are partitioned at every stage", "statement": "determine_graph_nodes puts every scenario of every stage in exactly one node of that stage, two scenarios share a node iff their clustered values are equal, and nodes are numbered consecutively stage by stage.", "quantifier": "for every clustered profile of any shape", "why_tests_cant": "partition law over arbitrary tables", "anchors": ["pyensys/Optimisers/ControlGraphsCreator.py::GraphNodesCreator"]}
{"id": "C31", "title": "Edges connect consecutive stages sharing a scenario", "statement": "determine_graph_edges links two nodes iff they belong to consecutive stages and share a scenario; each link appears once; every scenario therefore traces one directed path through all stages.", "quantifier": "for every profile", "why_tests_cant": "quantifies over all tables", "anchors": ["pyensys/Optimisers/ControlGraphsCreator.py::GraphEdgesCreator"]}
{"id": "C32", "title": "Tree conversion unfolds the graph", "statement": "convert() turns the staged scenario graph into a graph in which every node except the root has exactly one predecessor, the original root remains the root, and the labelled root paths are exactly those of the original graph, whatever order Python's sets are traversed in.", "quantifier": "for every staged graph with a single root and every set iteration order", "why_tests_cant": "unbounded graphs and arbitrary set orders", "anchors": ["pyensys/Optimisers/ControlGraphsCreator.py::GraphtoTreeConverter.convert", "pyensys/wrappers/networkx_wrapper.py::DirectedGraph"]}
{"id": "C33", "title": "Inputs accepted as trees are arborescences", "statement": "When convert() returns the graph unchanged because is_tree() holds, every node of it has at most one predecessor.", "quantifier": "for every directed graph", "why_tests_cant": "networkx is_tree ignores edge direction; the gap needs a quantified statement", "anchors": ["pyensys/Optimisers/ControlGraphsCreator.py::GraphtoTreeConverter.convert", "pyensys/wrappers/networkx_wrapper.py::DirectedGraph.is_tree"]}
{"id": "C34", "title": "Node loads are scenario averages", "statement": "The load data attached to a control node is, per bus, the arithmetic mean of the P and Q rows of the node's scenarios in the node's stage year, each bus listed once.", "quantifier": "for every profile table and node", "why_tests_cant": "aggregation law over arbitrary data", "anchors": ["pyensys/Optimisers/ControlGraphsCreator.py::_adapt_information_buses/_create_map_node_to_data_power_system"]}
{"id": "C35", "title": "Stage years agree between data and discounting", "statement": "The year whose loads are attached to a node equals the optimisation year used for its stage in construction times and discounting.", "quantifier": "for every order of the profile index", "why_tests_cant": "holds or fails depending on the order of the years", "anchors": ["pyensys/Optimisers/ControlGraphsCreator.py::_create_map_node_to_data_power_system", "pyensys/Optimisers/NonAnticipativeRecursiveFunction.py::solve"]}
{"id": "C36", "title": "Centroids are cluster means", "statement": "calculate_clusters_centroids replaces each value by the mean of the values that carry its label in that time step; the per-step sum is preserved and equal labels give equal results.", "quantifier": "for every value table and every labelling by 0..k-1 with all labels used", "why_tests_cant": "arithmetic law over unbounded tables and all labellings the clustering library may return", "anchors": ["pyensys/data_processing/clustering.py::TimeSeriesClustering.calculate_clusters_centroids"]}
{"id": "C37", "title": "Profile down-sampling averages blocks", "statement": "Adapting a profile to the requested time steps yields, column by column, the means of consecutive equal blocks, preserves the column average, is the identity when the lengths agree, and raises ValueError when the profile is shorter or not a multiple.", "quantifier": "for every profile length, width and requested horizon", "why_tests_cant": "all lengths and divisors", "anchors": ["pyensys/readers/JSONReader.py::_adjust_pandapower_profiles_to_time_settings/_recalculate_pandapower_profile_data"]}
{"id": "C38", "title": "Growth profiles are normalised to the first year", "statement": "The profile derived from bus data has value 1 for every scenario in the first year, equals the ratio of total apparent power to the first-year total elsewhere, and data whose first year differs between scenarios is rejected.", "quantifier": "for every set of scenario/year/bus rows", "why_tests_cant": "ratio law over arbitrary tables", "anchors": ["pyensys/readers/JSONReader.py::_normalise_system_apparent_power/_create_optimisation_profiles_based_on_attest_dataframes"]}
{"id": "C39", "title": "Decimal numerals are read correctly", "statement": "The MATPOWER reader's number parser returns the value of any numeral of the form [-]digits[.digits][e(+|-)digits], possibly followed by ';' or ','.", "quantifier": "for every such numeral of any length", "why_tests_cant": "infinitely many numerals; sign, fraction and exponent interact", "anchors": ["pyensys/readers/JSONReader.py::_get_digit_string"]}
{"id": "C40", "title": "A leading bracket does not change a number", "statement": "Parsing a token with '[' in front gives the same value as parsing the bare numeral.", "quantifier": "for every numeral, negative ones included", "why_tests_cant": "sign handling depends on the position of the minus character", "anchors": ["pyensys/readers/JSONReader.py::_get_digit_string"]}
{"id": "C41", "title": "Reinforcement keeps impedance times rating", "statement": "Applying a list of line reinforcements raises each targeted line's rating by the stated MW converted at the line voltage, never lowers a rating, keeps (resistance x rating) and (reactance x rating) constant, puts the line in service, and touches no other line.", "quantifier": "for every network, every list of updates and non-negative capacities", "why_tests_cant": "accumulation over arbitrary lists including repeats", "anchors": ["pyensys/wrappers/PandaPowerManager.py::PandaPowerManager.update_multiple_parameters"]}
{"id": "C42", "title": "Order of reinforcements is irrelevant", "statement": "Permuting the list of line reinforcements does not change the resulting network.", "quantifier": "for every network and permutation", "why_tests_cant": "needs all permutations", "anchors": ["pyensys/wrappers/PandaPowerManager.py::update_multiple_parameters"]}
{"id": "C43", "title": "Each OPF starts from the original network", "statement": "The network the OPF sees for a node depends only on the original network, the interventions in service and the node's data, not on previously evaluated candidates.", "quantifier": "for every history of previous evaluations", "why_tests_cant": "history independence", "anchors": ["pyensys/wrappers/PandaPowerManager.py::update_multiple_parameters/initialise_pandapower_network", "pyensys/Optimisers/NonAnticipativeRecursiveFunction.py::_update_status_elements_opf", "pyensys/Optimisers/RecursiveFunction.py::_operational_check"]}
{"id": "C44", "title": "Load updates hit the bus and nothing else", "statement": "A load update writes the given value to the first load at the given bus, leaves every other entry unchanged, and fails loudly when the bus has no load.", "quantifier": "for every network and list of load updates", "why_tests_cant": "frame property over arbitrary tables", "anchors": ["pyensys/wrappers/PandaPowerManager.py::update_multiple_parameters"]}
{"id": "C45", "title": "Flexible-unit updates take effect", "statement": "After the flexible-unit data of a node is applied, the addressed static generators and cost rows carry the given limits and costs.", "quantifier": "for every network and flexible-unit table", "why_tests_cant": "needs every table; silent loss is invisible on the tables tests use", "anchors": ["pyensys/wrappers/PandaPowerManager.py::update_multiple_parameters", "pyensys/Optimisers/RecursiveFunction.py::_parameters_for_flexible_units"]}
{"id": "C46", "title": "Single and clustered interventions address the same line", "statement": "An intervention on line position p has the same effect given as the integer p or as a one-element cluster [p].", "quantifier": "for every network, position and capacity", "why_tests_cant": "equivalence of two code paths over all inputs", "anchors": ["pyensys/wrappers/PandaPowerManager.py::update_multiple_parameters"]}
{"id": "C47", "title": "Scenario tree positions are ancestors", "statement": "In the generated planner input, scenario s reads at stage y the multiplier of node floor(s / 2^(N-1-y)); consecutive stages are parent and child, and every node of a stage is used by equally many scenarios.", "quantifier": "for every number of stages N, stage y and scenario s < 2^(N-1)", "why_tests_cant": "closed formula over all sizes", "anchors": ["pyensys/cases.py::pyensys_cases.build_json"]}
{"id": "C48", "title": "Growth multipliers interpolate between the two scenarios", "statement": "Stage y of the generated multiplier tree has 2^y equally spaced entries going from the active-economy to the slow-progress multiplier.", "quantifier": "for every number of years and growth data", "why_tests_cant": "all sizes", "anchors": ["pyensys/cases.py::attest_invest"]}
{"id": "C49", "title": "Country multipliers compound along the path", "statement": "Every 2050 multiplier is its path parent's 2040 multiplier compounded with the corresponding 2050 growth.", "quantifier": "for all three countries and eight leaves", "why_tests_cant": "a relation between all table entries rather than fixed values", "anchors": ["pyensys/Optimisers/scenarios_multipliers.py::get_mult"]}
{"id": "C50", "title": "Catalogue rounding is the least sufficient size", "statement": "Each proposed reinforcement is replaced by the smallest catalogue value not below it, zero stays zero, and values above the catalogue raise ValueError.", "quantifier": "for every value and catalogue", "why_tests_cant": "all reals and catalogues", "anchors": ["pyensys/cases.py::Screenning_clusters"]}
{"id": "C51", "title": "Cluster reduction returns distinct clusters", "statement": "If more clusters than the permitted maximum are found, exactly that many are kept, they are distinct members of the original list, in increasing original order.", "quantifier": "for every cost list and limit", "why_tests_cant": "selection law over arbitrary lists", "anchors": ["pyensys/cases.py::Screenning_clusters"]}
{"id": "C52", "title": "Cluster ordering loses nothing", "statement": "Ordering the clusters is a permutation of the de-duplicated clusters.", "quantifier": "for every cluster list", "why_tests_cant": "all lists", "anchors": ["pyensys/cases.py::Screenning_clusters"]}
{"id": "C53", "title": "Textual lists are parsed as numbers", "statement": "A list option given as text, e.g. \"[10,20]\", denotes the same list as the Python list [10,20].", "quantifier": "for every list of natural numbers", "why_tests_cant": "all lists", "anchors": ["pyensys/cases.py::kwargs2ListF"]}
{"id": "C54", "title": "A verified cluster was verified on its own", "statement": "When cluster verification assigns a cluster to a tree node, the OPF was feasible for the base network reinforced by exactly that cluster, and every cheaper cluster was tried first and failed.", "quantifier": "for every network, cluster list and OPF behaviour", "why_tests_cant": "depends on the state carried over between attempts", "anchors": ["pyensys/Optimisers/clusters_verification_function.py::clust_verification"]}
{"id": "C55", "title": "Recording generator costs is reversible", "statement": "Recording generator cost data, removing it from the case and restoring it yields the original costs.", "quantifier": "for every generator cost table", "why_tests_cant": "round trip for all tables", "anchors": ["pyensys/Optimisers/process_data.py::recordValues/replaceGenCost"]}
{"id": "C56", "title": "Discount and capital-recovery factors", "statement": "get_factors returns DF[y] = 1/(1-d)^y, CRF[0]=1 and a 10-year spacing for each requested stage, all defined whenever d differs from 1.", "quantifier": "for every rate and number of stages", "why_tests_cant": "all inputs", "anchors": ["pyensys/Optimisers/process_data.py::get_factors"]}
{"id": "C57", "title": "Energy tree sizes and parents", "statement": "The temporal energy tree built from interval sizes has 1 + sum of prefix products nodes, every node except the root has one parent at the previous level, and the scenario intervals of a level partition all scenarios.", "quantifier": "for every tree data of any depth", "why_tests_cant": "all tree shapes", "anchors": ["pyensys/engines/pyeneE.py::EnergyClass._Measure/_Connect/Mapping"]}
{"id": "C58", "title": "Storage is conserved over the energy tree", "statement": "Any assignment satisfying the state-of-charge constraints at every node satisfies, along each root-to-leaf path, end level = start level + inflows - outflows.", "quantifier": "for every tree and every feasible assignment", "why_tests_cant": "all feasible solutions of unbounded models", "anchors": ["pyensys/engines/pyeneE.py::EnergyClass constraints"]}
{"id": "C59", "title": "Wind output stays within the park rating", "statement": "The wind profile is zero below cut-in and above cut-out, equals the rating between rated and cut-out speed, and lies between zero and the rating everywhere.", "quantifier": "for every wind series and turbine data with cut-in < rated <= cut-out", "why_tests_cant": "all series", "anchors": ["pyensys/engines/pyeneR.py::buildWind"]}
{"id": "C60", "title": "Failure sequences respect drawn times", "statement": "In the Monte-Carlo status matrix each element is available for its time-to-failure, then unavailable for its time-to-repair, alternating until the horizon; an hour is intact iff all elements are available.", "quantifier": "for all horizons and drawn times", "why_tests_cant": "all sequences", "anchors": ["pyensys/engines/pyene_Stochastic.py::calculatematrixfailureandrecover"]}
{"id": "C61", "title": "Planning on the created tree", "statement": "From a clustered profile with one cluster at the first stage, create_control_graph produces a control tree on which the non-anticipative search runs without raising, and every stored plan visits one node per stage from the root, consecutive nodes sharing a scenario.", "quantifier": "for every usable profile, load table, intervention pool, set order and OPF behaviour", "why_tests_cant": "composition of graph creation, tree conversion and search over unbounded inputs", "anchors": ["pyensys/Optimisers/ControlGraphsCreator.py::RecursiveFunctionGraphCreator", "pyensys/Optimisers/NonAnticipativeRecursiveFunction.py::NonAnticipativeRecursiveFunction.solve"]}
{"id": "C62", "title": "From bus data to plans", "statement": "A table of bus loads with at least two years and one common non-zero first-year total is read, clustered and turned into a control tree on which data years and discounting years agree at every stage and the search runs without raising.", "quantifier": "for every such table, gapless clustering, set order, intervention pool and OPF behaviour", "why_tests_cant": "composition of reader, clustering, graph creation and search over unbounded inputs", "anchors": ["pyensys/readers/JSONReader.py::_create_optimisation_profiles_based_on_attest_dataframes", "pyensys/data_processing/clustering.py::TimeSeriesClustering", "pyensys/Optimisers/ControlGraphsCreator.py::RecursiveFunctionGraphCreator.create_recursive_function_graph"]}
{"id": "C63", "title": "A cluster rescales its own controller only", "statement": "Updating the network controllers for a node replaces the data of the controllers named by the node's clusters (element type and variable) by the configured profile times the centroid, and leaves all the other controllers and tables unchanged.", "quantifier": "for every list of profiles, network and cluster", "why_tests_cant": "a cluster that names no profile silently overwrites another controller; tests only use matching ones", "anchors": ["pyensys/wrappers/PandaPowerWrapper.py::update_network_controller/get_row_to_update", "pyensys/Optimisers/RecursiveFunction.py::_update_pandapower_controllers/_get_profile_position_to_update"]}
{"id": "C64", "title": "The base planner's OPF sees all selected interventions and nothing else", "statement": "The network the OPF of the base (anticipative) planner sees is the original network with the interventions of the candidate and the new interventions in service, whatever was evaluated before.", "quantifier": "for every candidate, set of new interventions and history", "why_tests_cant": "tests replace the network manager by a mock", "anchors": ["pyensys/Optimisers/RecursiveFunction.py::_update_status_elements_opf/_update_status_elements_opf_per_intervention_group"]}
{"id": "C65", "title": "Investment options describe the clusters", "statement": "Each investment option written to the planner input lists the reinforced branches of its cluster counted from one, their catalogue sizes (moved up by the oversize parameter) and the sum of cost per length times line length; without oversizing the capacities are those of the cluster.", "quantifier": "for every catalogue, cost list, line lengths, oversize and cluster list", "why_tests_cant": "all lists", "anchors": ["pyensys/cases.py::build_json"]}
{"id": "C66", "title": "Every screened cluster can be costed", "statement": "An investment option can be built for every cluster the screening loop proposes, for lines and transformers.", "quantifier": "for every network, catalogue and cluster", "why_tests_cant": "depends on the catalogue of the branch type", "anchors": ["pyensys/cases.py::build_json"]}
{"id": "C67", "title": "The report follows the first and the last path", "statement": "The saved report holds, for every year, the solution of the first and of the last node of that level of the tree, and the last cost as the total.", "quantifier": "for every number of years and every solution", "why_tests_cant": "all numbers of years", "anchors": ["pyensys/cases.py::save_in_jsonW_2"]}
{"id": "C68", "title": "The interventions of a plan are saved", "statement": "save_in_jsonW writes, for the first and the last scenario, the lines and capacities of the clusters the planner chose.", "quantifier": "for every planner solution", "why_tests_cant": "all solutions", "anchors": ["pyensys/cases.py::save_in_jsonW"]}
{"id": "C69", "title": "No empty cluster is offered", "statement": "The clusters offered to the planner all reinforce at least one branch.", "quantifier": "for every screening result and limit", "why_tests_cant": "depends on costs and order of clusters", "anchors": ["pyensys/cases.py::Screenning_clusters"]}
{"id": "C70", "title": "Clusters are ordered by size", "statement": "After ordering, clusters are increasing and the last one, whose cost serves as the maximum, is the most expensive.", "quantifier": "for every cluster list", "why_tests_cant": "all lists", "anchors": ["pyensys/cases.py::Screenning_clusters"]}
{"id": "C71", "title": "Screening a node assumes its ancestors' investments", "statement": "When a node of the scenario tree is screened, the investments assumed to exist are those of its ancestors.", "quantifier": "for every tree and screening behaviour", "why_tests_cant": "depends on the state carried between nodes", "anchors": ["pyensys/Optimisers/screening_model_CLI.py::main_screening"]}
{"id": "C72", "title": "A network that needs nothing is reported as such", "statement": "If and only if no node needs a reinforcement the planning run ends with the message that no investments were identified.", "quantifier": "for every screening result", "why_tests_cant": "all sizes", "anchors": ["pyensys/cases.py::attest_invest/Screenning_clusters"]}
{"id": "C73", "title": "Verification reinforces a line by the MVA of the cluster", "statement": "Adding c MVA to a line of V kV during verification raises its three-phase rating by c MVA.", "quantifier": "for every network and cluster", "why_tests_cant": "all ratings", "anchors": ["pyensys/Optimisers/clusters_verification_function.py::clust_verification_function"]}
{"id": "C74", "title": "Replacing external grids keeps costs", "statement": "When external grids are replaced by generators no unit is lost and every unit keeps its own cost.", "quantifier": "for every network", "why_tests_cant": "all tables of units and costs", "anchors": ["pyensys/Optimisers/clusters_verification_function.py::clust_verification_function"]}
{"id": "C75", "title": "Verification scales each load by the multiplier of its bus", "statement": "At every node of the tree each load is scaled by the multiplier of its bus and the additional load of its bus is added.", "quantifier": "for every network, tree and multiplier", "why_tests_cant": "all trees and networks", "anchors": ["pyensys/Optimisers/clusters_verification_function.py::clust_verification_function", "pyensys/Optimisers/process_data.py::mult_for_bus"]}
{"id": "C76", "title": "Reported costs are those of the catalogue", "statement": "The investment cost in the report is the cost of the cluster according to the catalogue, in millions.", "quantifier": "for every planning run", "why_tests_cant": "all catalogues", "anchors": ["pyensys/Optimisers/clusters_verification_function.py::clust_verification_function", "pyensys/cases.py::save_in_jsonW_2"]}
{"id": "C77", "title": "A planning run ends with a verified report", "statement": "With a full tree of one to four years the planning run raises no exception; it either reports that some node has no feasible candidate or saves, for every year, the cluster found for the first and for the last node.", "quantifier": "for every setting, candidate list and OPF behaviour", "why_tests_cant": "the composition of screening results, files, verification and report for all inputs", "anchors": ["pyensys/cases.py::attest_invest", "pyensys/Optimisers/clusters_verification_function.py::clust_verification_function", "pyensys/cases.py::save_in_jsonW_2"]}
{"id": "C78", "title": "Discount factors do not grow", "statement": "For positive rates the discount factor of a later stage is not greater than that of an earlier one.", "quantifier": "for every positive rate and number of stages", "why_tests_cant": "all rates", "anchors": ["pyensys/Optimisers/process_data.py::get_factors"]}
{"id": "C79", "title": "Clusters given by the user are verified", "statement": "If the user gives the clusters, the clusters in the report are among them.", "quantifier": "for every list of clusters and every earlier run", "why_tests_cant": "depends on files of earlier runs", "anchors": ["pyensys/cases.py::attest_invest", "pyensys/Optimisers/clusters_verification_function.py::clust_verification_function"]}
{"id": "C80", "title": "Monte-Carlo runs finish", "statement": "A Monte-Carlo reliability simulation gives the curtailment of all intervals.", "quantifier": "for every network, horizon and drawn failure times", "why_tests_cant": "all drawn sequences; the run needs a solver", "anchors": ["pyensys/engines/pyene_Stochastic.py", "pyensys/engines/pyene_Models.py::Networkmodel"]}
{"id": "C81", "title": "Cooling capacity factor", "statement": "The capacity factor for the temperature of the cooling water lies in [0, 1], is 1 up to the healthy temperature, 0 from the shutdown temperature, and does not rise with the temperature.", "quantifier": "for every generator data and every series of temperatures", "why_tests_cant": "all series", "anchors": ["pyensys/engines/pyeneR.py::RESprofiles.get_CF"]}
{"id": "C82", "title": "Default temperatures can be used", "statement": "The capacity factors can be computed for the default temperatures.", "quantifier": "for every generator data", "why_tests_cant": "depends on settings not covered by tests", "anchors": ["pyensys/engines/pyeneR.py::RESprofiles.get_CF"]}
{"id": "C83", "title": "Data of the nodes of the energy tree", "statement": "Every node of the energy tree has the weight, the inputs and the outputs of its interval.", "quantifier": "for every tree data of any depth and number of vectors", "why_tests_cant": "all tree shapes and data", "anchors": ["pyensys/engines/pyeneE.py::EnergyClass._Parameters", "pyensys/engines/pyeneE.py::EnergyClass.initialise"]}
{"id": "C84", "title": "Lists of inputs are one vector", "statement": "A list of inputs gives each interval of the first level its input.", "quantifier": "for every number of intervals and list of inputs", "why_tests_cant": "all data", "anchors": ["pyensys/engines/pyeneE.py::EnergyClass._Measure"]}
{"id": "C85", "title": "Uncertainty at any level", "statement": "The energy tree can be built with uncertainty at any level.", "quantifier": "for every tree data", "why_tests_cant": "all data", "anchors": ["pyensys/engines/pyeneE.py::EnergyClass._Link"]}
{"id": "C86", "title": "The end level is determined", "statement": "The constraints determine the state at the end of every node from inputs, outputs and weights.", "quantifier": "for every tree data and every feasible assignment", "why_tests_cant": "all feasible solutions", "anchors": ["pyensys/engines/pyeneE.py::EnergyClass.addCon"]}
{"id": "C87", "title": "Container equality is equality of contents", "statement": "Two dictionary-mode containers are == exactly when every key reads the same in both, whatever the order of writes; two list-mode containers exactly when they hold the same items in the same order.", "quantifier": "for all pairs of operation histories and values", "why_tests_cant": "unbounded histories of both containers", "anchors": ["pyensys/DataContainersInterface/AbstractDataContainer.py::__eq__"]}
{"id": "C88", "title": "The incumbent is restored only when it was lost", "statement": "After the interventions of a node have been tried, the incumbent tree is empty only if no partial tree is stored; a node without interventions left keeps a non-empty incumbent and otherwise takes the stored partial tree.", "quantifier": "for every problem, every state and every behaviour of the recursive calls", "why_tests_cant": "arbitrary recursive behaviour and states", "anchors": ["pyensys/Optimisers/NonAnticipativeRecursiveFunction.py::_interventions_handler"]}
{"id": "C89", "title": "A MATPOWER case file is read exactly", "statement": "For a case file made of assignments of version and baseMVA, tables and other lines, the reader returns for each name the value of its last definition, number by number, and nothing for names without definition.", "quantifier": "for every file of that layout, any number of lines, any spacing, any numerals", "why_tests_cant": "unbounded files and texts", "anchors": ["pyensys/readers/JSONReader.py::_build_mat_file"]}
{"id": "C90", "title": "Every row of a table is read", "statement": "Blank lines and comments between the rows of a table do not change what is read.", "quantifier": "for every table and every position of the interrupting line", "why_tests_cant": "all tables and layouts", "anchors": ["pyensys/readers/JSONReader.py::_build_mat_file"]}
{"id": "C91", "title": "A table may be closed on its last row", "statement": "The element that follows a table is read, and a table may end the file, when the closing bracket stands on the last row.", "quantifier": "for every file", "why_tests_cant": "all files", "anchors": ["pyensys/readers/JSONReader.py::_build_mat_file"]}
{"id": "C92", "title": "Spacing of assignments does not matter", "statement": "An assignment is read in the same way with and without blanks around the equality sign.", "quantifier": "for every assignment and every rest of the file", "why_tests_cant": "all texts", "anchors": ["pyensys/readers/JSONReader.py::_build_mat_file"]}
{"id": "C93", "title": "Values may start on the line of the header", "statement": "Rows that start on the line of the header, and comments on that line, do not change what is read from the table.", "quantifier": "for every header line and table", "why_tests_cant": "all texts", "anchors": ["pyensys/readers/JSONReader.py::_build_mat_file"]}
{"id": "C94", "title": "No column of a table is dropped", "statement": "Every number of a row of a table is part of what is read, in particular all coefficients of a polynomial cost.", "quantifier": "for every table", "why_tests_cant": "all tables", "anchors": ["pyensys/readers/JSONReader.py::_build_mat_file"]}
{"id": "C95", "title": "Unlimited values are accepted", "statement": "A table may hold unlimited values (Inf), as MATPOWER does.", "quantifier": "for every table and position", "why_tests_cant": "all tables", "anchors": ["pyensys/readers/JSONReader.py::_build_mat_file"]}
{"id": "C96", "title": "Several clustered profiles are accepted", "statement": "With any number of clustered profiles the control graph is built and is a tree with the scenarios of the profiles.", "quantifier": "for every list of usable profiles", "why_tests_cant": "all numbers of profiles, all sizes", "anchors": ["pyensys/Optimisers/ControlGraphsCreator.py::create_recursive_function_graph"]}
{"id": "C97", "title": "Flexible units of a node are averages", "statement": "The table of flexible units attached to a node lists every bus with data for the node's scenarios and year exactly once; every limit and cost is the mean over these rows, and 0 when the table has no such column.", "quantifier": "for every table, node, scenario numbering and list of years", "why_tests_cant": "all tables and nodes", "anchors": ["pyensys/Optimisers/ControlGraphsCreator.py::_adapt_information_flexible_units"]}
{"id": "C98", "title": "Flexibility generators are added once per bus and found again", "statement": "Initialising the network adds, for every distinct bus of the flexible units, one idle controllable static generator and one zero cost row naming it, with fresh labels, changing nothing else; the updates of a flexible unit go to these rows when the network has no other generator at the bus.", "quantifier": "for every network and table of flexible units", "why_tests_cant": "all networks and tables", "anchors": ["pyensys/wrappers/PandaPowerManager.py::create_static_generators_for_flexibility", "pyensys/wrappers/PandaPowerWrapper.py::create_static_generator"]}
{"id": "C99", "title": "Sheets in the attest format are read exactly", "statement": "A sheet with one row per component and type gives one profile per type that occurs, in order of first occurrence; a profile has one column per row of its type, named after the component counted from zero, and the value of every period is the value of the row; a column name determines type and component.", "quantifier": "for every sheet with at least one row, all rows equally long and of type P or Q, and every settings entry in the attest format", "why_tests_cant": "all sheets", "anchors": ["pyensys/readers/JSONReader.py::_read_profile_data_from_file_with_attest_format", "pyensys/readers/JSONReader.py::_divide_data_per_type"]}
{"id": "C100", "title": "Chosen active columns apply to the whole sheet", "statement": "The active columns named in a settings entry are the active columns of every profile read from its sheet.", "quantifier": "for every sheet and settings entry in the attest format with chosen columns", "why_tests_cant": "the shipped settings choose no columns", "anchors": ["pyensys/readers/JSONReader.py::_store_active_columns"]}
{"id": "C101", "title": "Rows of unknown type are rejected", "statement": "A sheet in the attest format with a row of a type other than P and Q is rejected with an exception.", "quantifier": "for every sheet with equally long rows and every position of such a row", "why_tests_cant": "all positions and types", "anchors": ["pyensys/readers/JSONReader.py::_store_dataframe"]}
{"id": "C102", "title": "Tables given in the settings are kept exactly or rejected", "statement": "A profile whose table is written in the settings file is stored with exactly the given rows, or the file is rejected.", "quantifier": "for every table and column list", "why_tests_cant": "all shapes of tables", "anchors": ["pyensys/readers/JSONReader.py::_read_profile_data_with_original_format", "pyensys/readers/JSONReader.py::_create_dataframe"]}
{"id": "C103", "title": "Accepted profiles fit the periods of the OPF", "statement": "When the settings are accepted, every profile of the network has a table with exactly one row per period of the OPF.", "quantifier": "for every settings file, every content of the files it names and every state of the reader", "why_tests_cant": "all settings files", "anchors": ["pyensys/readers/JSONReader.py::_adjust_pandapower_profiles_to_time_settings"]}
{"id": "C104", "title": "A reader can be used for several files", "statement": "Reading a file with a reader that has read other files gives the same parameters as reading it with a fresh reader.", "quantifier": "for every settings file and every state of the reader", "why_tests_cant": "the tests use every reader once", "anchors": ["pyensys/readers/JSONReader.py::ReadJSON.read_json_data"]}
{"id": "C105", "title": "Unknown profile formats are reported", "statement": "A profile whose format is missing or unknown is rejected with ValueError.", "quantifier": "for every section of profiles", "why_tests_cant": "all formats and contents", "anchors": ["pyensys/readers/JSONReader.py::_load_pandapower_profile_data", "pyensys/readers/JSONReader.py::_load_optimisation_profiles_data"]}
{"id": "C106", "title": "Files that are not settings are rejected", "statement": "A path that does not name a .json file is rejected.", "quantifier": "for every path", "why_tests_cant": "all paths", "anchors": ["pyensys/readers/ReaderManager.py::read_parameters"]}
{"id": "C107", "title": "Exactly the MATPOWER text files are converted", "statement": "The network file is converted to the .mat format exactly when its extension is .m.", "quantifier": "for every path", "why_tests_cant": "all paths", "anchors": ["pyensys/readers/JSONReader.py::ReadJSON._load_pandapower_mpc_settings"]}
{"id": "C108", "title": "No table of the optimisation data is lost", "statement": "Every table listed in the optimisation profiles in the attest format can be found under the name of its group.", "quantifier": "for every list of tables", "why_tests_cant": "the tests use one table per group", "anchors": ["pyensys/readers/JSONReader.py::ReadJSON._extract_optimisation_profiles_data"]}
{"id": "C109", "title": "Power is balanced in every screened contingency", "statement": "In every answer to the screening model, for every contingency and time point, total generation plus shed load equals total demand.", "quantifier": "for every case with distinct bus numbers, every setting and every feasible answer", "why_tests_cant": "all networks and all feasible solutions", "anchors": ["pyensys/Optimisers/screening_model_CLI.py::model_screening.rules.nodeBalance_rule", "pyensys/Optimisers/screening_model_CLI.py::model_screening.nodeConnections_rule"]}
{"id": "C110", "title": "The screening model is the DC power flow with contingencies", "statement": "The answers to the model that is built are exactly the operating plans: generator limits, three cost secants, DC law, rating plus investments, no flow in outaged branches, reference angle, nodal balance and bounded shedding; its objective is their cost.", "quantifier": "for every case that is accepted and every assignment of the variables", "why_tests_cant": "all networks and all assignments", "anchors": ["pyensys/Optimisers/screening_model_CLI.py::model_screening.addConstraints", "pyensys/Optimisers/screening_model_CLI.py::model_screening.OFrule", "pyensys/Optimisers/screening_model_CLI.py::model_screening.rules"]}
{"id": "C111", "title": "The written direction of a branch does not matter", "statement": "Exchanging the ends of branches and negating their flows gives an answer of the same cost.", "quantifier": "for every case, set of branches and answer", "why_tests_cant": "all networks", "anchors": ["pyensys/Optimisers/screening_model_CLI.py::model_screening.rules.braCapacity_rule", "pyensys/Optimisers/screening_model_CLI.py::model_screening.rules.braCapacityN_rule"]}
{"id": "C112", "title": "Earlier reinforcements remain available", "statement": "An answer stays feasible without its investments when these are passed as previous investments.", "quantifier": "for every case and answer", "why_tests_cant": "all networks", "anchors": ["pyensys/Optimisers/screening_model_CLI.py::model_screening.rules.braCapacityN_rule", "pyensys/Optimisers/screening_model_CLI.py::model_screening.rules.braCapacity_rule"]}
{"id": "C113", "title": "There always is an answer: all load can be shed", "statement": "For every well-formed case with nonnegative demand the screening model is feasible.", "quantifier": "for every well-formed case", "why_tests_cant": "all networks", "anchors": ["pyensys/Optimisers/screening_model_CLI.py::model_screening.rules.loadcurtail_rule", "pyensys/Optimisers/screening_model_CLI.py::model_screening.rules.nodeBalance_rule"]}
{"id": "C114", "title": "Generation cost is not underestimated", "statement": "In every answer the cost charged for a generator is at least its cost curve at its output.", "quantifier": "for every case and answer", "why_tests_cant": "all outputs and cost curves", "anchors": ["pyensys/Optimisers/screening_model_CLI.py::model_screening.genCost_rule", "pyensys/Optimisers/screening_model_CLI.py::model_screening.rules.pwcost_rule"]}
{"id": "C115", "title": "Well-formed cases are accepted in any order of the generators", "statement": "The model is built for every case with matching tables, a reference bus, known buses and polynomial costs.", "quantifier": "for every well-formed case", "why_tests_cant": "all networks", "anchors": ["pyensys/Optimisers/screening_model_CLI.py::model_screening.genCost_rule"]}
{"id": "C116", "title": "An optimal answer invests exactly the overload", "statement": "With a positive investment cost, the investment in a branch is zero or the excess of its flow over its capacity in some contingency, it covers all contingencies, and it is zero without rating.", "quantifier": "for every case and every optimal answer", "why_tests_cant": "all optimal solutions of unbounded models", "anchors": ["pyensys/Optimisers/screening_model_CLI.py::model_screening.OFrule", "pyensys/Optimisers/screening_model_CLI.py::model_screening.rules.braCapacity_rule"]}
{"id": "C117", "title": "Interventions are the positive investments, rounded up and sorted", "statement": "The investment reported for a branch is its largest over the time points; the list of interventions is the sorted list of the rounded-up positive ones.", "quantifier": "for every case and answer", "why_tests_cant": "all answers", "anchors": ["pyensys/Optimisers/screening_model_CLI.py::model_screening"]}
{"id": "C118", "title": "More contingencies never make a plan cheaper", "statement": "An answer for a longer list of contingencies is an answer for its beginning, with at most the same cost.", "quantifier": "for every well-formed case, list of contingencies and answer", "why_tests_cant": "all networks and lists", "anchors": ["pyensys/Optimisers/screening_model_CLI.py::model_screening.OFrule"]}
{"id": "C119", "title": "The converter reads every well-formed case file exactly", "statement": "A file made of notes, baseMVA, bus, gen, branch, gencost and demand tables with closing lines is converted, and the dictionary holds its numbers column by column, its last bus of type 3 as slack bus, and the numbers of its rows.", "quantifier": "for every copy of the converter and every such file, of any number of tables and rows", "why_tests_cant": "unbounded files, all numerals", "anchors": ["pyensys/tests/matpower/conversion_model_mat2json.py::any2json.matpower2json", "pyensys/Optimisers/conversion_model_mat2json.py::any2json.matpower2json", "pyensys/engines/pyeneI.py::any2json.matpower2json"]}
{"id": "C120", "title": "The columns of a table have equal lengths", "statement": "After a successful conversion all columns of a table have the same number of entries.", "quantifier": "for every file that is converted", "why_tests_cant": "all files, well-formed or not", "anchors": ["pyensys/tests/matpower/conversion_model_mat2json.py::any2json.matpower2json", "pyensys/Optimisers/conversion_model_mat2json.py::any2json.matpower2json", "pyensys/engines/pyeneI.py::any2json.matpower2json"]}
{"id": "C121", "title": "The slack bus is the bus of type 3", "statement": "The Slack entry is the number of a bus whose type entry, at the same position, is 3.", "quantifier": "for every file that is converted", "why_tests_cant": "all files, well-formed or not", "anchors": ["pyensys/tests/matpower/conversion_model_mat2json.py::any2json.matpower2json", "pyensys/Optimisers/conversion_model_mat2json.py::any2json.matpower2json", "pyensys/engines/pyeneI.py::any2json.matpower2json"]}
{"id": "C122", "title": "The cost lists are consistent", "statement": "MODEL, STARTUP, SHUTDOWN, NCOST and COST are of equal length and every row of COST has NCOST entries.", "quantifier": "for every file that is converted", "why_tests_cant": "all files, well-formed or not", "anchors": ["pyensys/tests/matpower/conversion_model_mat2json.py::any2json.matpower2json", "pyensys/Optimisers/conversion_model_mat2json.py::any2json.matpower2json", "pyensys/engines/pyeneI.py::any2json.matpower2json"]}
{"id": "C123", "title": "Cost coefficients are numbers", "statement": "Every entry of COST is a number.", "quantifier": "for every file that is converted", "why_tests_cant": "all files", "anchors": ["pyensys/tests/matpower/conversion_model_mat2json.py::any2json.matpower2json", "pyensys/Optimisers/conversion_model_mat2json.py::any2json.matpower2json", "pyensys/engines/pyeneI.py::any2json.matpower2json"]}
{"id": "C124", "title": "Cost functions survive the conversion", "statement": "Two different cost functions give different COST rows.", "quantifier": "for every file and cost row", "why_tests_cant": "all rows and files", "anchors": ["pyensys/tests/matpower/conversion_model_mat2json.py::any2json.matpower2json", "pyensys/Optimisers/conversion_model_mat2json.py::any2json.matpower2json", "pyensys/engines/pyeneI.py::any2json.matpower2json"]}
{"id": "C125", "title": "Polynomial costs with decimal coefficients are accepted", "statement": "A cost row with MODEL 2 and NCOST numbers is converted.", "quantifier": "for every file and cost row", "why_tests_cant": "all rows and files", "anchors": ["pyensys/tests/matpower/conversion_model_mat2json.py::any2json.matpower2json", "pyensys/Optimisers/conversion_model_mat2json.py::any2json.matpower2json", "pyensys/engines/pyeneI.py::any2json.matpower2json"]}
{"id": "C126", "title": "Comments do not matter", "statement": "A line that starts with % can be inserted anywhere without effect.", "quantifier": "for every file and every position", "why_tests_cant": "all files and positions", "anchors": ["pyensys/tests/matpower/conversion_model_mat2json.py::any2json.matpower2json", "pyensys/Optimisers/conversion_model_mat2json.py::any2json.matpower2json", "pyensys/engines/pyeneI.py::any2json.matpower2json"]}
{"id": "C127", "title": "The converter and the reader of case files agree", "statement": "matpower2json and the case-file reader of JSONReader.py give the same numbers for the same file.", "quantifier": "for every file", "why_tests_cant": "all files", "anchors": ["pyensys/tests/matpower/conversion_model_mat2json.py::any2json.matpower2json", "pyensys/Optimisers/conversion_model_mat2json.py::any2json.matpower2json", "pyensys/engines/pyeneI.py::any2json.matpower2json", "pyensys/readers/JSONReader.py::_build_mat_file"]}
{"id": "C128", "title": "A network file is accepted by the screening model", "statement": "A file that describes a network with polynomial costs is converted into a well-formed case, for which the screening model is built exactly if its first generator has positive PMAX.", "quantifier": "for every such file and every fitting setting", "why_tests_cant": "all networks", "anchors": ["pyensys/tests/matpower/conversion_model_mat2json.py::any2json.matpower2json", "pyensys/Optimisers/screening_model_CLI.py::model_screening"]}
{"id": "C129", "title": "Whole-number columns hold the numbers of the file", "statement": "Bus numbers, types, areas, zones and states are stored as written, or the file is rejected.", "quantifier": "for every file", "why_tests_cant": "all files and numerals", "anchors": ["pyensys/tests/matpower/conversion_model_mat2json.py::any2json.matpower2json", "pyensys/Optimisers/conversion_model_mat2json.py::any2json.matpower2json", "pyensys/engines/pyeneI.py::any2json.matpower2json"]}
{"id": "C130", "title": "A row belongs to the last header before it", "statement": "Every row is stored in the table whose header was read last.", "quantifier": "for every file", "why_tests_cant": "all files", "anchors": ["pyensys/tests/matpower/conversion_model_mat2json.py::any2json.matpower2json", "pyensys/Optimisers/conversion_model_mat2json.py::any2json.matpower2json", "pyensys/engines/pyeneI.py::any2json.matpower2json"]}
{"id": "C131", "title": "Settings that are given are kept and the others take their defaults", "statement": "Every setting of the problem section and of an investment option has the given value, or its default when it is left out, whether or not its section is present.", "quantifier": "for every settings file", "why_tests_cant": "all files with any settings left out", "anchors": ["pyensys/readers/JSONReader.py::ReadJSON._load_problem_settings", "pyensys/readers/JSONReader.py::ReadJSON._load_optimisation_binary_variables", "pyensys/readers/ReaderDataClasses.py::ProblemSettings"]}
{"id": "C132", "title": "Every section of a settings file reaches the parameters", "statement": "The profiles are those of the entries in their order, the number of periods is that of the dates from begin to end, and the tables given in the attest format are stored and used for the optimisation profile.", "quantifier": "for every settings file that is read", "why_tests_cant": "unbounded numbers of entries and tables", "anchors": ["pyensys/readers/JSONReader.py::ReadJSON._read_data_from_dictionary", "pyensys/readers/JSONReader.py::ReadJSON._load_pandapower_profiles_data", "pyensys/readers/JSONReader.py::ReadJSON._load_opf_time_settings", "pyensys/readers/JSONReader.py::ReadJSON._load_optimisation_profiles_data"]}
{"id": "C133", "title": "Every size of a catalogue has a cost", "statement": "Reading the interventions gives lines and transformers with one cost per size; consistent lists are used as given and otherwise each cost is 20 times the size.", "quantifier": "for every intervention file and without one", "why_tests_cant": "lists of any length", "anchors": ["pyensys/Optimisers/input_output_function.py::read_input_data"]}
{"id": "C134", "title": "Every screening option has its own cost", "statement": "The options of every branch, from a file or all sizes of its kind, get the costs the catalogue gives them; options that cannot be priced stop the run.", "quantifier": "for every network, catalogue and result file", "why_tests_cant": "unbounded numbers of branches, options and sizes", "anchors": ["pyensys/Optimisers/input_output_function.py::read_screenModel_output"]}
{"id": "C135", "title": "Load and flexibility series belong to their bus", "statement": "Every bus gets the hourly active and reactive load and flexibility of its row, and zeros without load; the peak values are those of the peak hour.", "quantifier": "for every network, every four sheets and every peak hour", "why_tests_cant": "unbounded numbers of buses and rows in any order", "anchors": ["pyensys/Optimisers/input_output_function.py::get_time_series_data"]}
{"id": "C136", "title": "Screening and optimisation use the same peak loads", "statement": "The peak loads prepared for the screening model equal those prepared for the optimisation.", "quantifier": "for all data that are read", "why_tests_cant": "unbounded numbers of buses", "anchors": ["pyensys/Optimisers/input_output_function.py::get_peak_data", "pyensys/Optimisers/input_output_function.py::get_time_series_data"]}
{"id": "C137", "title": "The full report describes every path", "statement": "The report has the entries Scenario 1 to Scenario n; entry i gives for path i the costs, whose total is the sum of branch and flexibility costs, and per year the investments of its scenario, for any number of years.", "quantifier": "for every number of paths and years and all tables", "why_tests_cant": "all trees and tables", "anchors": ["pyensys/Optimisers/input_output_function.py::output_data2Json"]}
{"id": "C138", "title": "The short report has the two extreme paths", "statement": "The short report lists the first and the last path, two different ones.", "quantifier": "for every number of paths and years", "why_tests_cant": "all trees and tables", "anchors": ["pyensys/Optimisers/input_output_function.py::output_data2Json"]}
{"id": "C139", "title": "Writing a report changes no results", "statement": "The tables handed to the report are not changed; a second report of the same results is the same.", "quantifier": "for all tables", "why_tests_cant": "state of the caller over all runs", "anchors": ["pyensys/Optimisers/input_output_function.py::output_data2Json"]}
{"id": "C140", "title": "Recorded values are those of the solution", "statement": "The recorded tables have NoSce^year entries per year and the values of the variables at the same indices; the recorded investment of a branch is the capacity that is built; the initial tables have the same shape.", "quantifier": "for all numbers of years, scenarios, elements, seasons, days and hours and all values", "why_tests_cant": "six nested unbounded indices", "anchors": ["pyensys/Optimisers/process_data.py::record_bra_from_pyo_result", "pyensys/Optimisers/process_data.py::record_bus_from_pyo_result", "pyensys/Optimisers/process_data.py::record_invest_from_pyo_result", "pyensys/Optimisers/process_data.py::initial_value"]}
{"id": "C141", "title": "The verification script stores a result for every node", "statement": "For a scenario tree of any depth the script stores the cluster and cost it finds for the k-th node at place k.", "quantifier": "for every depth, every answer of the OPF and all clusters", "why_tests_cant": "all answers of the OPF at all nodes", "anchors": ["pyensys/Optimisers/clusters_verification.py"]}
{"id": "C142", "title": "The script stores clusters that are feasible", "statement": "The cluster the script stores for a node makes the network of the node feasible, and no cheaper one does.", "quantifier": "for every answer of the OPF and all clusters", "why_tests_cant": "all answers of the OPF", "anchors": ["pyensys/Optimisers/clusters_verification.py"]}
{"id": "C143", "title": "Whole-number columns take whole numbers only", "statement": "A word is taken as a whole number exactly if it is an optional sign and digits, with single underscores between digits at most; its value is that of the digits. A first word of a table that is none stops the conversion.", "quantifier": "for every word, table and file", "why_tests_cant": "all words and files", "anchors": ["pyensys/Optimisers/conversion_model_mat2json.py::any2json", "pyensys/engines/pyeneI.py::any2json"]}
{"id": "C144", "title": "The rivers of a node", "statement": "For every node the adjacency lists hold exactly the rivers that leave it and exactly the rivers that arrive, each once and in the order given.", "quantifier": "for all rivers, no two between the same nodes", "why_tests_cant": "all networks", "anchors": ["pyensys/engines/pyeneH.py::HydrologyClass._BuildHNetwork"]}
{"id": "C145", "title": "Several rivers between two nodes", "statement": "Two rivers may join the same two nodes.", "quantifier": "for all rivers", "why_tests_cant": "all networks", "anchors": ["pyensys/engines/pyeneH.py::HydrologyClass._BuildHNetwork"]}
{"id": "C146", "title": "A river in parts", "statement": "Dividing a river gives the number of parts set, which lead from its source to its mouth over new nodes, are equally long and as long as the river together, keep its bed, and the first keeps its share; other rivers stay as they are.", "quantifier": "for all rivers and numbers of parts", "why_tests_cant": "all numbers of parts", "anchors": ["pyensys/engines/pyeneH.py::HydrologyClass._BuildParts"]}
{"id": "C147", "title": "Ramps limit the flows", "statement": "The ramp given for a river limits how far its flow changes from one time to the next.", "quantifier": "for all ramps and all answers of a solver", "why_tests_cant": "all feasible answers", "anchors": ["pyensys/engines/pyeneH.py::HydrologyClass._BuildParts", "pyensys/engines/pyeneH.py::HydrologyClass._Process", "pyensys/engines/pyeneH.py::HydrologyClass.cHRampUp_rule", "pyensys/engines/pyeneH.py::HydrologyClass.cHRampDown_rule"]}
{"id": "C148", "title": "Pumps are inputs and outputs", "statement": "The input nodes of the model are those given and those that pumps deliver to, the output nodes those given and those that pumps draw from, each once.", "quantifier": "for all settings", "why_tests_cant": "all settings", "anchors": ["pyensys/engines/pyeneH.py::HydrologyClass._Process"]}
{"id": "C149", "title": "Balance of water at every node", "statement": "At every node, time and scenario the water put in and arriving equals the water leaving, taken out and added to the storage.", "quantifier": "for all settings and all answers of a solver", "why_tests_cant": "all feasible answers", "anchors": ["pyensys/engines/pyeneH.py::HydrologyClass.cHNodeBalance_rule"]}
{"id": "C150", "title": "No water is made or lost", "statement": "Over the whole time the water put in and the water in the rivers at first equals the water taken out and the water in the rivers at last; storage gives back what it takes. When the end of a scenario is linked to its beginning as much leaves as enters.", "quantifier": "for all settings and all answers of a solver", "why_tests_cant": "all feasible answers, times of any length", "anchors": ["pyensys/engines/pyeneH.py::HydrologyClass.cHNodeBalance_rule", "pyensys/engines/pyeneH.py::HydrologyClass.cHRiverBalance_rule", "pyensys/engines/pyeneH.py::HydrologyClass.cHSoCLink_rule"]}
{"id": "C151", "title": "Shares of rivers", "statement": "The flows into two rivers that leave the same node are in the proportion of their shares.", "quantifier": "for all rivers and all answers of a solver", "why_tests_cant": "all feasible answers", "anchors": ["pyensys/engines/pyeneH.py::HydrologyClass.cHWeights_rule", "pyensys/engines/pyeneH.py::HydrologyClass._BuildHNetwork"]}
{"id": "C152", "title": "Limits of flows", "statement": "Flows stay between those at the smallest and the largest depth; a slack widens the limits only with feasibility constraints and at a penalty.", "quantifier": "for all settings and all answers of a solver", "why_tests_cant": "all feasible answers", "anchors": ["pyensys/engines/pyeneH.py::HydrologyClass.cHQmaxUp_rule", "pyensys/engines/pyeneH.py::HydrologyClass.cHQmaxDown_rule", "pyensys/engines/pyeneH.py::HydrologyClass.cHQminUp_rule", "pyensys/engines/pyeneH.py::HydrologyClass.cHQminDown_rule", "pyensys/engines/pyeneH.py::HydrologyClass.cHPenalty_rule"]}
{"id": "C153", "title": "The ramp is that of the river", "statement": "The flow into a river changes by at most its own range of flows from one time to the next.", "quantifier": "for all settings and all answers of a solver", "why_tests_cant": "all feasible answers", "anchors": ["pyensys/engines/pyeneH.py::HydrologyClass.cHRampUp_rule", "pyensys/engines/pyeneH.py::HydrologyClass.cHRampDown_rule", "pyensys/engines/pyeneH.py::HydrologyClass._Process"]}
{"id": "C154", "title": "Storage", "statement": "A unit with storage has a level of its own between zero and its capacity rounded towards zero, and the level at the end is that at the beginning; levels change only with water of their node.", "quantifier": "for all units and all answers of a solver", "why_tests_cant": "all feasible answers", "anchors": ["pyensys/engines/pyeneH.py::HydrologyClass.cHStorMax_rule", "pyensys/engines/pyeneH.py::HydrologyClass.cHStorLink_rule", "pyensys/engines/pyeneH.py::HydrologyClass.initialise"]}
{"id": "C155", "title": "Links between scenarios", "statement": "A link makes the content of every river equal at the two ends it names; settings without links are allowed.", "quantifier": "for all links and all answers of a solver", "why_tests_cant": "all feasible answers", "anchors": ["pyensys/engines/pyeneH.py::HydrologyClass.cHSoCLink_rule", "pyensys/engines/pyeneH.py::HydrologyClass.initialise"]}
{"id": "C156", "title": "Outlets keep a smallest flow", "statement": "From an output node that no river leaves at least the smallest flow of the first river arriving there is taken out, less the slack; an output node may be without rivers.", "quantifier": "for all settings and all answers of a solver", "why_tests_cant": "all feasible answers", "anchors": ["pyensys/engines/pyeneH.py::HydrologyClass.cHQminOut_rule", "pyensys/engines/pyeneH.py::HydrologyClass.initialise"]}
{"id": "C157", "title": "Complete settings give a model", "statement": "For complete settings the model is built without an error, and no constraint asks for a variable or parameter that does not exist.", "quantifier": "for all complete settings", "why_tests_cant": "settings of any size", "anchors": ["pyensys/engines/pyeneH.py::HydrologyClass.initialise", "pyensys/engines/pyeneH.py::HydrologyClass.addCon", "pyensys/engines/pyeneH.py::HydrologyClass.addVars"]}
{"id": "C158", "title": "Shares that leave within a time step", "statement": "The share of the water that leaves a river within a time step is between 0 and 1, and no smaller for the larger depth.", "quantifier": "for all rivers and time steps", "why_tests_cant": "all rational parameters", "anchors": ["pyensys/engines/pyeneH.py::HydrologyClass._Process"]}
{"id": "C159", "title": "Flow downstream", "statement": "The flow downstream is a mixture of the flow upstream and the flow belonging to the content of the river, less the slack; the content at the smallest depth belongs to the smallest flow.", "quantifier": "for all settings and all answers of a solver", "why_tests_cant": "all feasible answers", "anchors": ["pyensys/engines/pyeneH.py::HydrologyClass.cHQdownTime_rule", "pyensys/engines/pyeneH.py::HydrologyClass._Process"]}
{"id": "C160", "title": "Tables of pumps", "statement": "The two tables of pumps name for every node the pump that draws from it and the pump that delivers to it.", "quantifier": "for all pumps", "why_tests_cant": "all settings", "anchors": ["pyensys/engines/pyeneH.py::HydrologyClass.initialise"]}
{"id": "C161", "title": "Given inputs", "statement": "Inputs that are given as fixed or as series hold in every answer at their node, time and scenario.", "quantifier": "for all inputs and all answers of a solver", "why_tests_cant": "all feasible answers", "anchors": ["pyensys/engines/pyeneH.py::HydrologyClass.cHFixedInput_rule", "pyensys/engines/pyeneH.py::HydrologyClass.cHFixedInputV_rule", "pyensys/engines/pyeneH.py::HydrologyClass.cHFixedInputM_rule"]}
{"id": "C162", "title": "What is connected to a bus", "statement": "The lists of a bus hold exactly the branches that leave it, those that arrive at it and its generators, in the order given; a branch or generator at an unknown bus is refused.", "quantifier": "for all networks", "why_tests_cant": "all networks", "anchors": ["pyensys/engines/pyeneD.py::ElectricityNetwork.initialise", "pyensys/engines/pyeneD.py::ElectricityNetwork.findBusPosition", "pyensys/engines/pyeneD.py::Generators.initialise"]}
{"id": "C163", "title": "Flows of the security cases", "statement": "Every security case has a flow for every branch but the tripped one; flows are numbered without gaps and no two share a number; the case of a branch that does not exist is refused.", "quantifier": "for all networks and lists of cases", "why_tests_cant": "all networks and lists of cases", "anchors": ["pyensys/engines/pyeneD.py::ElectricityNetwork.initialise", "pyensys/engines/pyeneD.py::Branch.set_N1", "pyensys/engines/pyeneD.py::ElectricityNetwork.get_FlowF"]}
{"id": "C164", "title": "Balance at every bus", "statement": "At every bus, time, scenario and security case, generation, arriving flows and curtailment equal leaving flows, half of the losses of the branches, the pump and the load with its share of losses; without links a scenario takes its own profile.", "quantifier": "for all settings and all answers of a solver", "why_tests_cant": "all feasible answers", "anchors": ["pyensys/engines/pyeneN.py::ENetworkClass.cNEBalance_rule", "pyensys/engines/pyeneN.py::ENetworkClass.ProcessEDem", "pyensys/engines/pyeneN.py::ENetworkClass.initialise"]}
{"id": "C165", "title": "Generation covers loads, pumps and losses", "statement": "Over the whole network generation and curtailment equal loads, pumps and losses of the branches.", "quantifier": "for all settings and all answers of a solver", "why_tests_cant": "all feasible answers", "anchors": ["pyensys/engines/pyeneN.py::ENetworkClass.cNEBalance_rule", "pyensys/engines/pyeneN.py::ENetworkClass.cNEBalance0_rule", "pyensys/engines/pyeneN.py::ENetworkClass.initialise"]}
{"id": "C166", "title": "Security settings give a model", "statement": "With security cases, whether listed or all branches, and whether or not losses are estimated, there is a model.", "quantifier": "for all networks", "why_tests_cant": "all networks", "anchors": ["pyensys/engines/pyeneN.py::ENetworkClass.cNEBalance_rule", "pyensys/engines/pyeneN.py::ENetworkClass.cNEFlow_rule", "pyensys/engines/pyeneN.py::ENetworkClass.initialise", "pyensys/engines/pyeneD.py::ElectricityNetwork.initialise", "pyensys/engines/pyeneD.py::ElectricityNetwork.get_FlowF"]}
{"id": "C167", "title": "Flows follow the angles", "statement": "In every security case the flow of a branch in service times its reactance is the difference of the angles at its ends and stays within its rating; a branch that is out of service carries no power.", "quantifier": "for all settings and all answers of a solver", "why_tests_cant": "all feasible answers", "anchors": ["pyensys/engines/pyeneN.py::ENetworkClass.cNEFlow_rule", "pyensys/engines/pyeneN.py::ENetworkClass.cNEFMax_rule", "pyensys/engines/pyeneN.py::ENetworkClass.cNEFMin_rule", "pyensys/engines/pyeneD.py::Branch.cNEFlow_rule", "pyensys/engines/pyeneD.py::Branch.cNEFMax_rule"]}
{"id": "C168", "title": "Estimated losses", "statement": "The losses of a branch are at least the resistance times the square of its flow, and the constraints ask for no more than the piecewise estimate, a quarter of the squared distance of the points above.", "quantifier": "for all settings and all answers of a solver", "why_tests_cant": "all feasible answers, any number of points", "anchors": ["pyensys/engines/pyeneN.py::ENetworkClass.cNDCLossA_rule", "pyensys/engines/pyeneN.py::ENetworkClass.cNDCLossB_rule", "pyensys/engines/pyeneN.py::ENetworkClass.ProcessENet", "pyensys/engines/pyeneN.py::ENetworkClass.initialise", "pyensys/engines/pyeneD.py::Branch.cNDCLossA_rule", "pyensys/engines/pyeneD.py::Branch.cNDCLossB_rule"]}
{"id": "C169", "title": "Curtailment only when allowed", "statement": "Without feasibility constraints no load is curtailed.", "quantifier": "for all settings and all answers of a solver", "why_tests_cant": "all feasible answers", "anchors": ["pyensys/engines/pyeneN.py::ENetworkClass.cNEBalance_rule", "pyensys/engines/pyeneN.py::ENetworkClass.cNEBalance0_rule", "pyensys/engines/pyeneN.py::ENetworkClass.initialise"]}
{"id": "C170", "title": "Limits of generators", "statement": "The output of machines and plants is between their limits, that of renewables at most the profile of the scenario times the capacity.", "quantifier": "for all settings and all answers of a solver", "why_tests_cant": "all feasible answers", "anchors": ["pyensys/engines/pyeneN.py::ENetworkClass.cNEGMax_rule", "pyensys/engines/pyeneN.py::ENetworkClass.cNEGMin_rule", "pyensys/engines/pyeneN.py::ENetworkClass.cNRESMax_rule", "pyensys/engines/pyeneD.py::GenClass.cNEGMax_rule", "pyensys/engines/pyeneD.py::GenClass.cNEGMin_rule"]}
{"id": "C171", "title": "Costs of generation", "statement": "The cost of a generator is at least the weight of the time step times its cost curve at its power: linear, by points, or quadratic.", "quantifier": "for all settings and all answers of a solver", "why_tests_cant": "all feasible answers, all cost curves", "anchors": ["pyensys/engines/pyeneN.py::ENetworkClass.cNEGenC_rule", "pyensys/engines/pyeneD.py::GenClass.cNEGenC_rule", "pyensys/engines/pyeneD.py::GenClass.set_CostCurve"]}
{"id": "C172", "title": "The objective is the cost of the energy", "statement": "The objective counts the cost of every time step with its weight.", "quantifier": "for all settings and all answers of a solver", "why_tests_cant": "all feasible answers", "anchors": ["pyensys/engines/pyeneN.py::ENetworkClass.OF_rule", "pyensys/engines/pyeneN.py::ENetworkClass.cNEGenC_rule", "pyensys/engines/pyeneD.py::GenClass.cNEGenC_rule"]}
{"id": "C173", "title": "Ramps of generators", "statement": "The output of a generator with a ramp changes between neighbouring time steps by at most that share of its capacity; a short list of ramps leaves the other machines without ramp.", "quantifier": "for all settings and all answers of a solver", "why_tests_cant": "all feasible answers", "anchors": ["pyensys/engines/pyeneN.py::ENetworkClass.cNGenRampUp_rule", "pyensys/engines/pyeneN.py::ENetworkClass.cNGenRampDown_rule", "pyensys/engines/pyeneD.py::GenClass.cNGenRampUp_rule", "pyensys/engines/pyeneD.py::ConventionalConfig.MPCconfigure"]}
{"id": "C174", "title": "Unit commitment", "statement": "A unit that can be switched is off and without output, or on and within its limits.", "quantifier": "for all settings and all answers of a solver", "why_tests_cant": "all feasible answers", "anchors": ["pyensys/engines/pyeneN.py::ENetworkClass.cNEGMaxUC_rule", "pyensys/engines/pyeneN.py::ENetworkClass.cNEGMinUC_rule", "pyensys/engines/pyeneD.py::GenClass.cNEGMaxUC_rule", "pyensys/engines/pyeneD.py::GenClass.cNEGMinUC_rule", "pyensys/engines/pyeneD.py::GenClass.set_Bin"]}
{"id": "C175", "title": "Minimum up and down times", "statement": "A unit that starts stays on for its minimum up time, one that stops stays off for its minimum down time.", "quantifier": "for all settings and all answers of a solver", "why_tests_cant": "all feasible answers, times of any length", "anchors": ["pyensys/engines/pyeneN.py::ENetworkClass.cNEGMinUT1_rule", "pyensys/engines/pyeneN.py::ENetworkClass.cNEGMinUT2_rule", "pyensys/engines/pyeneN.py::ENetworkClass.cNEGMinDT1_rule", "pyensys/engines/pyeneN.py::ENetworkClass.cNEGMinDT2_rule", "pyensys/engines/pyeneN.py::ENetworkClass._getLL", "pyensys/engines/pyeneD.py::GenClass.cNEGMinUT1_rule", "pyensys/engines/pyeneD.py::GenClass.cNEGMinUT2_rule", "pyensys/engines/pyeneD.py::GenClass.set_MUT", "pyensys/engines/pyeneD.py::GenClass.set_MDT"]}
{"id": "C176", "title": "Unit commitment over scenarios", "statement": "With unit commitment there is a model for any number of scenarios.", "quantifier": "for all settings", "why_tests_cant": "all numbers of scenarios", "anchors": ["pyensys/engines/pyeneN.py::ENetworkClass.cNEGMinUC_rule", "pyensys/engines/pyeneN.py::ENetworkClass.addVars", "pyensys/engines/pyeneD.py::GenClass.cNEGMinUC_rule"]}
{"id": "C177", "title": "Pumps", "statement": "The power of a pump is between 0 and its capacity and is drawn at its bus.", "quantifier": "for all settings and all answers of a solver", "why_tests_cant": "all feasible answers", "anchors": ["pyensys/engines/pyeneN.py::ENetworkClass.addVars", "pyensys/engines/pyeneN.py::ENetworkClass.addCon", "pyensys/engines/pyeneN.py::ENetworkClass.cNLDMax_rule", "pyensys/engines/pyeneN.py::ENetworkClass.initialise"]}
{"id": "C178", "title": "Storage", "statement": "With storage units there is a model.", "quantifier": "for all settings", "why_tests_cant": "all settings", "anchors": ["pyensys/engines/pyeneN.py::ENetworkClass.cNStoreMax_rule", "pyensys/engines/pyeneN.py::ENetworkClass.cNStoreMin_rule", "pyensys/engines/pyeneN.py::ENetworkClass.addVars"]}
{"id": "C179", "title": "Baseload", "statement": "The output of a unit with baseload is at every time at least that share of its mean output.", "quantifier": "for all settings and all answers of a solver", "why_tests_cant": "all feasible answers", "anchors": ["pyensys/engines/pyeneN.py::ENetworkClass.cNEBaseload_rule", "pyensys/engines/pyeneN.py::ENetworkClass.addCon", "pyensys/engines/pyeneD.py::GenClass.cNEBaseload_rule", "pyensys/engines/pyeneD.py::Generators.cNEBaseload_rule"]}
{"id": "C180", "title": "Cooling water", "statement": "The capacity of a machine is reduced by the factor of the temperatures it is linked to and of its type.", "quantifier": "for all settings and all answers of a solver", "why_tests_cant": "all feasible answers", "anchors": ["pyensys/engines/pyeneN.py::ENetworkClass.cNEGMax_rule", "pyensys/engines/pyeneD.py::Generators.initialise", "pyensys/engines/pyeneD.py::GenClass.cNEGMaxWC_rule"]}
{"id": "C181", "title": "Ancillary services", "statement": "The ancillary service is at least its share of the generation and is covered by capacity that is not in use.", "quantifier": "for all settings and all answers of a solver", "why_tests_cant": "all feasible answers", "anchors": ["pyensys/engines/pyeneN.py::ENetworkClass.cNAncillary_rule", "pyensys/engines/pyeneN.py::ENetworkClass.cNServices_rule", "pyensys/engines/pyeneN.py::ENetworkClass.cNServicesA_rule"]}
{"id": "C182", "title": "Losses shared among the branches", "statement": "The losses of a report shared among the branches add up to the losses and the fixed losses.", "quantifier": "for all flows", "why_tests_cant": "all flows", "anchors": ["pyensys/engines/pyeneN.py::ENetworkClass.printLosses"]}
{"id": "C183", "title": "Uncertain renewables keep support free", "statement": "With an uncertainty the farms together stay below the reduced profiles, unless curtailment or units that offer support make up for the difference.", "quantifier": "for all settings and all answers of a solver", "why_tests_cant": "all feasible answers", "anchors": ["pyensys/engines/pyeneN.py::ENetworkClass.cNUncRES_rule", "pyensys/engines/pyeneN.py::ENetworkClass.cNUncRES0_rule", "pyensys/engines/pyeneN.py::ENetworkClass.cNServices_rule", "pyensys/engines/pyeneN.py::ENetworkClass.initialise"]}
{"id": "C184", "title": "Complete settings give a model", "statement": "If branches and generators are at known buses, branches have a reactance, lists of settings have one value or one for each unit, cost curves have their values and profiles cover all steps, then the engine builds all its constraints without an error, with or without network, losses, security cases and commitment.", "quantifier": "for all complete settings", "why_tests_cant": "all networks, fleets, horizons and scenarios", "anchors": ["pyensys/engines/pyeneN.py::ENetworkClass.initialise", "pyensys/engines/pyeneN.py::ENetworkClass.addCon"]}
{"id": "C185", "title": "Scenarios weigh as their intervals", "statement": "The weight of a scenario in the objective of the joint model is the product of the weights of the intervals that lead to it, and all weights add up to the product of the sums of the weights of the levels.", "quantifier": "for all trees of intervals with a weight for each", "why_tests_cant": "trees of any depth and width", "anchors": ["pyensys/engines/main.py::pyeneClass._Calculate_OFaux", "pyensys/engines/main.py::pyeneClass.initialise"]}
{"id": "C186", "title": "The tree fits the other models", "statement": "Joint initialisation gives a tree with a vector for each water input, or for each hydropower plant without rivers, no inputs and outputs, the weights of the data, and a network model for each node of the last level.", "quantifier": "for all joint settings", "why_tests_cant": "trees of any depth and width, any number of plants", "anchors": ["pyensys/engines/main.py::pyeneClass.initialise"]}
{"id": "C187", "title": "Setting the energy of one plant", "statement": "set_Hydro changes the input of one vector at the first interval and nothing else.", "quantifier": "for all inputs, plants and values", "why_tests_cant": "all inputs", "anchors": ["pyensys/engines/main.py::pyeneClass.set_Hydro"]}
{"id": "C188", "title": "Hydropower within its energy", "statement": "Without rivers a hydropower plant does not generate more, over all scenarios counted with their weights, than the inputs of its vector.", "quantifier": "for all joint settings and all answers of a solver", "why_tests_cant": "all feasible answers", "anchors": ["pyensys/engines/main.py::pyeneClass.cAEMNM_rule", "pyensys/engines/main.py::pyeneClass.addCon", "pyensys/engines/main.py::pyeneClass.initialise"]}
{"id": "C189", "title": "The objective is the expected cost", "statement": "The objective is the cost of generation and penalties less the income of pumps, each step of time with its weight and each scenario with its own.", "quantifier": "for all joint settings and all answers of a solver", "why_tests_cant": "all feasible answers", "anchors": ["pyensys/engines/main.py::pyeneClass.OF_rule", "pyensys/engines/main.py::pyeneClass._Calculate_OFaux"]}
{"id": "C190", "title": "Water of the inputs is paid by the tree", "statement": "The energy of a vector is the water that enters at its input with head and efficiency of the plant below it, and the plants generate no more than is supplied.", "quantifier": "for all joint settings with rivers and all answers", "why_tests_cant": "all feasible answers", "anchors": ["pyensys/engines/main.py::pyeneClass.cAHMIn1_rule", "pyensys/engines/main.py::pyeneClass.addCon", "pyensys/engines/main.py::pyeneClass.addPar"]}
{"id": "C191", "title": "Water at nodes added for pumps", "statement": "The water that enters at a node added for pumps is what the pump to it moves with its power, head and efficiency.", "quantifier": "for all joint settings with rivers and all answers", "why_tests_cant": "all feasible answers", "anchors": ["pyensys/engines/main.py::pyeneClass.cAHMIn2_rule", "pyensys/engines/main.py::pyeneClass.initialise"]}
{"id": "C192", "title": "Pumped water is not supplied twice", "statement": "When a pump delivers to an input of the tree, the tree supplies only the other water.", "quantifier": "for all joint settings with rivers and all answers", "why_tests_cant": "all feasible answers", "anchors": ["pyensys/engines/main.py::pyeneClass.cAHMIn1_rule", "pyensys/engines/main.py::pyeneClass.initialise"]}
{"id": "C193", "title": "Pumps need the power of what they lift", "statement": "The power of the water that a pump lifts is not more than the power it uses.", "quantifier": "for all joint settings with rivers and all answers", "why_tests_cant": "all feasible answers", "anchors": ["pyensys/engines/main.py::pyeneClass.cAHMIn2_rule", "pyensys/engines/main.py::pyeneClass.addPar"]}
{"id": "C194", "title": "Plants on rivers use the water of the rivers", "statement": "Plants at a node with rivers that leave it use no more water than flows into these rivers.", "quantifier": "for all joint settings with rivers and all answers", "why_tests_cant": "all feasible answers", "anchors": ["pyensys/engines/main.py::pyeneClass.cAHMOut1_rule", "pyensys/engines/main.py::pyeneClass.initialise"]}
{"id": "C195", "title": "Plants and pumps at outputs use the water that leaves", "statement": "Plants and pumps at an output of the rivers use no more water than leaves there.", "quantifier": "for all joint settings with rivers and all answers", "why_tests_cant": "all feasible answers", "anchors": ["pyensys/engines/main.py::pyeneClass.cAHMOut2_rule", "pyensys/engines/main.py::pyeneClass.initialise"]}
{"id": "C196", "title": "Water and energy of the rivers agree", "statement": "Over the weighted steps of time as much water leaves the rivers as enters, so that a plant at their end generates no more than is supplied.", "quantifier": "for all joint settings with rivers and all answers", "why_tests_cant": "all feasible answers", "anchors": ["pyensys/engines/main.py::pyeneClass.initialise", "pyensys/engines/main.py::pyeneClass.cAHMIn1_rule", "pyensys/engines/main.py::pyeneClass.cAHMOut2_rule"]}
{"id": "C197", "title": "Rivers end as they began", "statement": "In each scenario of the joint model a river holds as much water at the end as at the beginning.", "quantifier": "for all joint settings with rivers and all answers", "why_tests_cant": "all feasible answers", "anchors": ["pyensys/engines/main.py::pyeneClass.initialise", "pyensys/engines/main.py::pyeneClass.addCon"]}
{"id": "C198", "title": "Reports state the energy of the answer", "statement": "The reports about generation, pumping, demand and curtailment of one unit or bus are the energy of its power in the answer over the scenarios and steps that are asked for, with their weights, or without weights in a snapshot.", "quantifier": "for all joint models after initialisation and any number of setters, all options and all answers", "why_tests_cant": "all options, any number of scenarios and steps", "anchors": ["pyensys/engines/main.py::pyeneClass.get_Generation", "pyensys/engines/main.py::pyeneClass.get_Pump", "pyensys/engines/main.py::pyeneClass.get_Demand", "pyensys/engines/main.py::pyeneClass.get_DemandCurtailment", "pyensys/engines/main.py::pyeneClass.get_timeAndScenario"]}
{"id": "C199", "title": "Reports balance", "statement": "Reported generation and curtailment equal reported demand, pumping and losses.", "quantifier": "for all joint models and all answers of a solver", "why_tests_cant": "all feasible answers", "anchors": ["pyensys/engines/main.py::pyeneClass.get_AllGeneration", "pyensys/engines/main.py::pyeneClass.get_AllDemand", "pyensys/engines/main.py::pyeneClass.get_AllPumps", "pyensys/engines/main.py::pyeneClass.get_AllDemandCurtailment"]}
{"id": "C200", "title": "Reports are sums over their parts", "statement": "A report over several scenarios or steps is the sum of the reports over parts of them, and naming none means all.", "quantifier": "for all models, reports, options and lists of scenarios or steps", "why_tests_cant": "lists of any length", "anchors": ["pyensys/engines/main.py::pyeneClass.get_timeAndScenario", "pyensys/engines/main.py::pyeneClass.get_Generation", "pyensys/engines/main.py::pyeneClass.get_OFpart"]}
{"id": "C201", "title": "Spilled renewable generation", "statement": "Generation of the farms and the reported spilled energy make what is available, and the spilled energy is not negative.", "quantifier": "for all joint models and all answers", "why_tests_cant": "all feasible answers", "anchors": ["pyensys/engines/main.py::pyeneClass.get_RES", "pyensys/engines/main.py::pyeneClass.get_AllRES"]}
{"id": "C202", "title": "Components of the objective", "statement": "All components of the objective, with the penalty of the rivers, make the objective.", "quantifier": "for all joint models", "why_tests_cant": "any number of units, scenarios and steps", "anchors": ["pyensys/engines/main.py::pyeneClass.get_OFparts", "pyensys/engines/main.py::pyeneClass.get_OFpart", "pyensys/engines/main.py::pyeneClass.OF_rule"]}
{"id": "C203", "title": "Net demand and losses are reported", "statement": "The net demand and the losses of lines can be reported.", "quantifier": "for all joint models and all answers", "why_tests_cant": "all models", "anchors": ["pyensys/engines/main.py::pyeneClass.get_NetDemand", "pyensys/engines/main.py::pyeneClass.get_Loss", "pyensys/engines/main.py::pyeneClass.get_AllLoss"]}
{"id": "C204", "title": "Urban and rural loads", "statement": "Urban and rural demand and curtailment make the totals, and the rural ones are those of the rural buses.", "quantifier": "for all joint models, answers and types of loads", "why_tests_cant": "any number of buses", "anchors": ["pyensys/engines/main.py::pyeneClass.get_AllDemand", "pyensys/engines/main.py::pyeneClass.get_AllDemandCurtailment"]}
{"id": "C205", "title": "Profiles fit the steps of time", "statement": "A profile is accepted as it is when it has a value for each step, is averaged for one step, is split in 19 and 5 hours for two steps without losing energy, and is otherwise refused.", "quantifier": "for all profiles and numbers of steps", "why_tests_cant": "profiles of any length", "anchors": ["pyensys/engines/main.py::pyeneClass.CheckProfile"]}
{"id": "C206", "title": "Setting demand", "statement": "set_Demand replaces one demand profile and changes nothing else; profiles that do not exist are ignored.", "quantifier": "for all joint models, profiles and values", "why_tests_cant": "all states after any number of setters", "anchors": ["pyensys/engines/main.py::pyeneClass.set_Demand"]}
{"id": "C207", "title": "Setting renewable generation", "statement": "set_RES replaces one renewable profile, on the base, with the value or with the series of Overwrite, and changes nothing else.", "quantifier": "for all joint models, profiles, values and Overwrite tables", "why_tests_cant": "all states after any number of setters", "anchors": ["pyensys/engines/main.py::pyeneClass.set_RES"]}
{"id": "C208", "title": "Setting capacities of generators", "statement": "A unit that is switched off generates nothing, one with another capacity keeps to it, switching on restores the capacity, and other units are not affected.", "quantifier": "for all joint models and all answers of a solver", "why_tests_cant": "all feasible answers", "anchors": ["pyensys/engines/main.py::pyeneClass.set_GenCoFlag"]}
{"id": "C209", "title": "Setting lines", "statement": "The lines that are named get the value and no others do, and the flow of a line keeps to the capacity that was set in every contingency.", "quantifier": "for all joint models, lists of lines and answers of a solver", "why_tests_cant": "all feasible answers, lists of any length", "anchors": ["pyensys/engines/main.py::pyeneClass.set_LineCapacity", "pyensys/engines/main.py::pyeneClass.set_LineCapacityAll", "pyensys/engines/main.py::pyeneClass._set_LineCapacityAux"]}
{"id": "C210", "title": "Setting the status of an element", "statement": "set_element_status changes the mark of the element that is named and no other.", "quantifier": "for all lists of elements", "why_tests_cant": "lists of any length", "anchors": ["pyensys/engines/main.py::pyeneClass.set_element_status"]}
{"id": "C211", "title": "Marginal value of water", "statement": "The marginal value of water of a site is minus the dual of its balance, rounded towards zero; the flag says whether it exceeds the penalty; the mean is over the sites.", "quantifier": "for all joint models and duals", "why_tests_cant": "any number of sites", "anchors": ["pyensys/engines/main.py::pyeneClass.get_HydroMarginal", "pyensys/engines/main.py::pyeneClass.get_HydroFlag", "pyensys/engines/main.py::pyeneClass.get_MeanHydroMarginal"]}
{"id": "C212", "title": "Setters keep the model consistent", "statement": "After any number of setters the tables of the network are those that initialising the changed data would give.", "quantifier": "for all sequences of setters", "why_tests_cant": "sequences of any length", "anchors": ["pyensys/engines/main.py::pyeneClass.set_Demand", "pyensys/engines/main.py::pyeneClass.set_RES", "pyensys/engines/main.py::pyeneClass.set_LineCapacity", "pyensys/engines/main.py::pyeneClass.set_GenCoFlag"]}
{"id": "C213", "title": "Energy of the hydropower sites", "statement": "get_Hydro and get_AllHydro report the energy that the hydropower plants generate.", "quantifier": "for all joint models and all answers of a solver", "why_tests_cant": "all feasible answers", "anchors": ["pyensys/engines/main.py::pyeneClass.get_Hydro", "pyensys/engines/main.py::pyeneClass.get_AllHydro"]}
{"id": "C214", "title": "Positions of the network container", "statement": "After update_all_positions every element has its place in the list as position, lines and transformers hold the positions of their two buses in the order of the bus numbers, buses hold the positions of exactly the elements connected to them, and nothing else changes; repeating it changes nothing.", "quantifier": "for all networks with distinct numbers", "why_tests_cant": "sizes and numberings of networks are unbounded; only special orders of the buses swap the ends", "anchors": ["pyensys/engines/pyene_Parameters.py::ElectricityNetwork.update_all_positions", "pyensys/engines/pyene_Parameters.py::ElectricityNetwork.__update_relative_position_objects", "pyensys/engines/pyene_Parameters.py::ElectricityNetwork.__update_positions_objects"]}
{"id": "C215", "title": "Deletion from the network container", "statement": "Deleting elements takes out exactly those at the given positions, keeps the others in order and leaves all positions up to date.", "quantifier": "for all networks, kinds of elements and lists of positions", "why_tests_cant": "all subsets of positions", "anchors": ["pyensys/engines/pyene_Parameters.py::ElectricityNetwork.delete_objects"]}
{"id": "C216", "title": "Buses of islands and isolated nodes", "statement": "The search for islands always ends with a result in which every bus is reported exactly once, as isolated or in one island.", "quantifier": "for all networks in order and all orders of components", "why_tests_cant": "graphs of any size; networks with nothing in service", "anchors": ["pyensys/engines/pyene_Analizer.py::PowerSystemIslandsIsolations.islands_isolations", "pyensys/engines/pyene_Analizer.py::PowerSystemIslandsIsolations.find_isolates", "pyensys/engines/pyene_Analizer.py::PowerSystemIslandsIsolations.find_islands"]}
{"id": "C217", "title": "Islands are connected parts", "statement": "Two buses are in the same island exactly if a chain of elements in service joins them; a bus is isolated exactly if no element in service ends at it.", "quantifier": "for all networks in order and all orders of components", "why_tests_cant": "connectivity over chains of any length", "anchors": ["pyensys/engines/pyene_Analizer.py::PowerSystemIslandsIsolations.find_islands", "pyensys/engines/pyene_Analizer.py::PowerSystemIslandsIsolations.find_isolates", "pyensys/engines/pyene_Analizer.py::PowerSystemIslandsIsolations.edges_graph"]}
{"id": "C218", "title": "Elements of islands", "statement": "Every line and transformer in service is in exactly one island together with both its ends, and those out of service are reported apart.", "quantifier": "for all networks in order and all orders of components", "why_tests_cant": "graphs of any size", "anchors": ["pyensys/engines/pyene_Analizer.py::PowerSystemIslandsIsolations.__add_object_to_islands", "pyensys/engines/pyene_Analizer.py::PowerSystemIslandsIsolations.__delete_disconnected_series_elements"]}
{"id": "C219", "title": "Generators of islands", "statement": "Every generator is reported exactly once, with the isolated generators of its kind or in the island of its bus.", "quantifier": "for all networks in order and all orders of components", "why_tests_cant": "several generators at a bus, all kinds, any number", "anchors": ["pyensys/engines/pyene_Analizer.py::PowerSystemIslandsIsolations.__add_object_to_islands", "pyensys/engines/pyene_Analizer.py::PowerSystemIslandsIsolations.__delete_nodes_graph"]}
{"id": "C220", "title": "Islands are networks", "statement": "Every island is a non-empty connected network in order with positions up to date, and analysing it again finds only itself.", "quantifier": "for all networks in order and all orders of components", "why_tests_cant": "graphs of any size", "anchors": ["pyensys/engines/pyene_Analizer.py::PowerSystemIslandsIsolations.__update_all_pos_islands", "pyensys/engines/pyene_Analizer.py::PowerSystemIslandsIsolations.islands_isolations"]}
{"id": "C221", "title": "Supernodes of the reduction", "statement": "The search for supernodes always ends; the supernodes are the connected parts of the buses below the level, each with exactly its elements and with one pair of coupling bus and element for every element that leads above.", "quantifier": "for all networks in order and with positions up to date, and all levels", "why_tests_cant": "recursive search over graphs of any shape and size", "anchors": ["pyensys/engines/pyene_Analizer.py::PowerSystemReduction.__voltage_track", "pyensys/engines/pyene_Analizer.py::PowerSystemReduction.__check_positions_branch_objects", "pyensys/engines/pyene_Analizer.py::PowerSystemReduction.__check_ends_lines"]}
{"id": "C222", "title": "Reduction conserves demand", "statement": "The reduced network has the same total active and reactive demand and losses, and the demand of each part goes to its coupling bus when there is only one.", "quantifier": "for all networks in order and with positions up to date, all levels and all first numbers", "why_tests_cant": "sums over graphs of any size and any number of parts", "anchors": ["pyensys/engines/pyene_Analizer.py::PowerSystemReduction.network_reduction_voltage_no_characteristics", "pyensys/engines/pyene_Analizer.py::PowerSystemReduction.__add_artificial_elements", "pyensys/engines/pyene_Analizer.py::PowerSystemReduction.__reduce_network_from_supernodes"]}
{"id": "C223", "title": "What the reduction keeps", "statement": "Buses of the level and elements between two of them stay, in order and unchanged; all other elements are reported as removed.", "quantifier": "for all networks in order and with positions up to date, all levels and all first numbers", "why_tests_cant": "graphs of any size", "anchors": ["pyensys/engines/pyene_Analizer.py::PowerSystemReduction.__reduce_network_from_supernodes", "pyensys/engines/pyene_Analizer.py::PowerSystemReduction.network_reduction_voltage_no_characteristics"]}
{"id": "C224", "title": "Artificial buses and lines", "statement": "Every part with several connections becomes one artificial bus with its demand and one line per connection, with the data of the element it stands for, and numbers not in use; the buses at both ends list the line.", "quantifier": "for all networks in order and with positions up to date, all levels and all first numbers", "why_tests_cant": "any number of parts and connections; any numbering", "anchors": ["pyensys/engines/pyene_Analizer.py::PowerSystemReduction.__add_artificial_elements", "pyensys/engines/pyene_Analizer.py::PowerSystemReduction.__add_artificial_node", "pyensys/engines/pyene_Analizer.py::PowerSystemReduction.__add_artificial_lines"]}
{"id": "C225", "title": "Reduction preserves connectivity", "statement": "Two buses of the level are connected after the reduction exactly if they were before.", "quantifier": "for all networks in order and with positions up to date, all levels and all first numbers", "why_tests_cant": "chains of any length through any number of parts", "anchors": ["pyensys/engines/pyene_Analizer.py::PowerSystemReduction.network_reduction_voltage_no_characteristics", "pyensys/engines/pyene_Analizer.py::PowerSystemReduction.__add_artificial_elements"]}
{"id": "C226", "title": "When the reduction gives a network", "statement": "The reduction gives a network whenever the level is present, and stops with an error otherwise.", "quantifier": "for all networks in order and with positions up to date, all levels and all first numbers", "why_tests_cant": "quantifies over all networks, including those with parts without connection", "anchors": ["pyensys/engines/pyene_Analizer.py::PowerSystemReduction.network_reduction_voltage_no_characteristics", "pyensys/engines/pyene_Analizer.py::PowerSystemReduction.__reduce_network_from_supernodes", "pyensys/engines/pyene_Analizer.py::PowerSystemReduction.__add_artificial_elements"]}
{"id": "C227", "title": "Generators in the reduction", "statement": "No generator is lost; generators of a part go to the bus that stands for it and generators of buses of the level stay.", "quantifier": "for all networks in order and with positions up to date, all levels and all first numbers", "why_tests_cant": "depends on the order of the buses", "anchors": ["pyensys/engines/pyene_Analizer.py::PowerSystemReduction.__add_generators_to_artificial_node", "pyensys/engines/pyene_Analizer.py::PowerSystemReduction.__add_artificial_elements"]}
{"id": "C228", "title": "Branches reported as preserved", "statement": "There is one entry per line of the reduced network, with its place and ends and the place and ends of the element it comes from.", "quantifier": "for all networks in order and with positions up to date, all levels and all first numbers", "why_tests_cant": "any number of lines and any order", "anchors": ["pyensys/engines/pyene_Analizer.py::PowerSystemReduction.__add_artificial_elements", "pyensys/engines/pyene_Analizer.py::PowerSystemReduction.__add_artificial_lines"]}
{"id": "C229", "title": "The wrapper of GLPK states what is asked for", "statement": "For every list of commands that names new blocks, none empty, and uses places of blocks added before, each at most once in the matrix, the wrapper takes all commands; the answers of the problem are the assignments by name and position that meet the last bound of every column and row, and its objective is the sum of the last coefficients.", "quantifier": "for all lists of commands, all numbers and sizes of blocks and all assignments", "why_tests_cant": "the numbers of rows and columns are offsets that depend on all blocks added before; any number of blocks", "anchors": ["pyensys/engines/_glpk.pyx::GLPKSolver"]}
{"id": "C230", "title": "The energy tree with GLPK and with pyomo", "statement": "For data without uncertainty the problem for GLPK is built and solved, and its answers are exactly the states that meet the constraints of the model with pyomo.", "quantifier": "for all data of any depth without uncertainty, any number of vectors, all assignments", "why_tests_cant": "trees of any depth and width; equality of two sets of states", "anchors": ["pyensys/engines/pyene_Models.py::Energymodel.optimisationEM", "pyensys/engines/pyene_Models.py::Energymodel.variablesEM", "pyensys/engines/pyene_Models.py::Energymodel.Energybalance", "pyensys/engines/pyene_Models.py::Energymodel.Aggregation"]}
{"id": "C231", "title": "The end of the energy tree with GLPK", "statement": "In every answer the storage at the end is the sum of inputs less outputs of all nodes, each multiplied by the weights of its node and of the nodes before it.", "quantifier": "for all data of any depth without uncertainty, any number of vectors, all answers", "why_tests_cant": "induction over the depth of the tree", "anchors": ["pyensys/engines/pyene_Models.py::Energymodel.Energybalance", "pyensys/engines/pyene_Models.py::Energymodel.Aggregation", "pyensys/engines/pyene_Models.py::Energymodel.GetTotalStorage"]}
{"id": "C232", "title": "The energy tree with uncertainty and GLPK", "statement": "The problem for GLPK is built for trees with uncertain levels.", "quantifier": "for all data of any depth", "why_tests_cant": "any place of the uncertain level", "anchors": ["pyensys/engines/pyene_Models.py::Energymodel.Aggregation", "pyensys/engines/pyene_Models.py::Energymodel.definitionEM"]}
{"id": "C233", "title": "Setters of the energy tree for GLPK", "statement": "Inputs, outputs, weights, nodes and links of the tree can be replaced, and the problem is that of the new data.", "quantifier": "for all data without uncertainty and all tables of the size of the tree", "why_tests_cant": "any size and all values", "anchors": ["pyensys/engines/pyene_Models.py::Energymodel.SetIntakeTree", "pyensys/engines/pyene_Models.py::Energymodel.SetOutputTree", "pyensys/engines/pyene_Models.py::Energymodel.SetWeightNodes", "pyensys/engines/pyene_Models.py::Energymodel.SetTreeNodes", "pyensys/engines/pyene_Models.py::Energymodel.SetLLEB", "pyensys/engines/pyene_Models.py::Energymodel.SetLLEA"]}
{"id": "C234", "title": "The optimal power flow with GLPK", "statement": "For every network the problem can be built from, with limits in order, the problem for GLPK is built and solved; its answers are exactly the plans that meet the limits of units, pumps and lines, the pieces of costs and losses, the law of the angles and the balance of every bus in every day, time and case; all results are the tables of the plan, and the objective is its cost.", "quantifier": "for all networks of any size, any number of days, times, cases and pieces, and all plans", "why_tests_cant": "rows and columns are numbered by offsets that depend on all blocks added before; equality of two sets of states", "anchors": ["pyensys/engines/pyene_Models.py::Networkmodel.variablesCommon", "pyensys/engines/pyene_Models.py::Networkmodel.variablesOPF", "pyensys/engines/pyene_Models.py::Networkmodel.activepowerbalancepernode", "pyensys/engines/pyene_Models.py::Networkmodel.activepowerflowconstraints", "pyensys/engines/pyene_Models.py::Networkmodel.activepowerlosses1constraints", "pyensys/engines/pyene_Models.py::Networkmodel.activepowerlosses2constraints", "pyensys/engines/pyene_Models.py::Networkmodel.piecewiselinearisationcost", "pyensys/engines/pyene_Models.py::Networkmodel.Objective_functionCommon", "pyensys/engines/pyene_Models.py::Networkmodel.GetActivePowerFlow"]}
{"id": "C235", "title": "Power is conserved with GLPK", "statement": "In every plan what is produced and not served is what is consumed, lost and pumped.", "quantifier": "for all networks of any size and all plans", "why_tests_cant": "sums over any number of buses and lines", "anchors": ["pyensys/engines/pyene_Models.py::Networkmodel.activepowerbalancepernode"]}
{"id": "C236", "title": "Storage with GLPK gives what was stored", "statement": "What a storage device gives to the network was stored before.", "quantifier": "for all networks with storage devices and all plans", "why_tests_cant": "the sign of a coefficient; any number of times", "anchors": ["pyensys/engines/pyene_Models.py::Networkmodel.activepowerbalancepernode"]}
{"id": "C237", "title": "The objective of the optimal power flow with GLPK", "statement": "In every answer of least objective the cost of every unit is its highest piece times the hours, and not below 0, and the objective is the sum of these costs.", "quantifier": "for all networks and all optimal answers", "why_tests_cant": "optimal answers over all reals", "anchors": ["pyensys/engines/pyene_Models.py::Networkmodel.piecewiselinearisationcost", "pyensys/engines/pyene_Models.py::Networkmodel.Objective_functionCommon"]}
{"id": "C238", "title": "The economic dispatch with GLPK", "statement": "The economic dispatch is built and solved.", "quantifier": "for all data", "why_tests_cant": "any data", "anchors": ["pyensys/engines/pyene_Models.py::Networkmodel.EconomicDispatchModel", "pyensys/engines/pyene_Models.py::Networkmodel.coeffmatrixED"]}
{"id": "C239", "title": "Limits of the optimal power flow with GLPK", "statement": "A network the optimal power flow can be built from is solved exactly if its limits are in order; otherwise the program ends with an AssertionError. Limits are in order if the network has a plan.", "quantifier": "for all networks of any size", "why_tests_cant": "a condition that is necessary and sufficient", "anchors": ["pyensys/engines/pyene_Models.py::Networkmodel.variablesOPF", "pyensys/engines/pyene_Models.py::Networkmodel.variablesCommon", "pyensys/engines/pyene_Models.py::Networkmodel.optimisationNM"]}
{"id": "C240", "title": "Data the optimal power flow with GLPK is built from", "statement": "The problem is built for any number of storage devices and contingencies and for lines between any two buses.", "quantifier": "for all networks", "why_tests_cant": "any number of devices and cases", "anchors": ["pyensys/engines/pyene_Models.py::Networkmodel.activepowerbalancepernode", "pyensys/engines/pyene_Models.py::Networkmodel.variablesCommon"]}
{"id": "C241", "title": "Energy tree and power system together with GLPK", "statement": "A tree without uncertainty with a vector for some of the hydro units, a day of the network for every node of its last level and a network for the optimal power flow give a problem that is built and solved. Its answers are exactly the plans and storages that meet the rules of the power flow, the ramps and the tree, where every node of the last level gives what the unit of the vector generates in its day; all results are read as they are, and the objective is the cost of the plan with the chance of every day.", "quantifier": "for all trees of any depth and width, networks of any size, plans and storages, with at most 11 vectors or 10 days", "why_tests_cant": "equality of two sets of states over problems of any size", "anchors": ["pyensys/engines/pyene_Models.py::EnergyandNetwork.coeffmatrixENM", "pyensys/engines/pyene_Models.py::EnergyandNetwork.EnergyandNetworkRelation", "pyensys/engines/pyene_Models.py::EnergyandNetwork.Objective_functionENM", "pyensys/engines/pyene_Models.py::EnergyandNetwork.optimisationENM", "pyensys/engines/pyene_Models.py::Networkmodel.generationrampsconstraints"]}
{"id": "C242", "title": "Water used by the units of the joint model with GLPK", "statement": "What is stored of a vector at the end is all that enters, less what leaves before the last level and what its unit generates, each interval as often as it occurs; so no unit of a vector generates more energy than enters.", "quantifier": "for all coupled trees and networks and all plans", "why_tests_cant": "sums over trees of any depth", "anchors": ["pyensys/engines/pyene_Models.py::EnergyandNetwork.EnergyandNetworkRelation"]}
{"id": "C243", "title": "Limits of the joint model with GLPK", "statement": "The joint problem is solved exactly if the limits are in order and every thermal and hydro unit has a positive ramp (with two times a day); otherwise the program ends with an AssertionError.", "quantifier": "for all coupled trees and networks", "why_tests_cant": "a condition that is necessary and sufficient", "anchors": ["pyensys/engines/pyene_Models.py::EnergyandNetwork.optimisationENM"]}
{"id": "C244", "title": "Any number of vectors and days in the joint model with GLPK", "statement": "The joint problem is built for any number of vectors and days.", "quantifier": "for all coupled trees and networks", "why_tests_cant": "names collide only from the twelfth vector and eleventh day on", "anchors": ["pyensys/engines/pyene_Models.py::EnergyandNetwork.EnergyandNetworkRelation"]}
{"id": "C245", "title": "Renewable units in the joint economic dispatch with GLPK", "statement": "The joint economic dispatch is built for networks with renewable units.", "quantifier": "for all coupled trees and networks", "why_tests_cant": "any number of units", "anchors": ["pyensys/engines/pyene_Models.py::Networkmodel.activepowerbalancesystem", "pyensys/engines/pyene_Models.py::EnergyandNetwork.coeffmatrixENM"]}
{"id": "C246", "title": "Hydro units without water in the joint model with GLPK", "statement": "No hydro unit generates energy unless water enters the tree.", "quantifier": "for all coupled trees and networks and all plans", "why_tests_cant": "any number of units and vectors", "anchors": ["pyensys/engines/pyene_Models.py::EnergyandNetwork.EnergyandNetworkRelation"]}
{"id": "C247", "title": "Balance of the joint economic dispatch with GLPK", "statement": "Without renewable units the economic dispatch of the joint model has one row for each day and time, which is met exactly by the plans in which the units, storages and what is not served or not produced balance the demand of all buses and the pumps.", "quantifier": "for all networks without renewable units, days, times and plans", "why_tests_cant": "sums over any number of units and buses", "anchors": ["pyensys/engines/pyene_Models.py::Networkmodel.activepowerbalancesystem"]}
{"id": "C248", "title": "Options of a workbook", "statement": "A sheet of options whose columns of problems, switches and engines have one length, and whose columns of characteristics and options another, is read. Every problem has the switch and the engine of the last row that names it, every characteristic the last option, and all other options stay.", "quantifier": "for all sheets with any titles and numbers of rows", "why_tests_cant": "any number of rows and repeated names", "anchors": ["pyensys/engines/pyeneI.py::excel2pyene._read_model_options"]}
{"id": "C249", "title": "Elements of a workbook", "statement": "A sheet of elements with a column of IDs gives one piece of information for each cell below the title of a parameter, in order, with its value and type, and with the characteristics of the row and all its subtypes.", "quantifier": "for all sheets, titles, rows and types of elements", "why_tests_cant": "any columns in any order, including two of one meaning", "anchors": ["pyensys/engines/pyeneI.py::excel2pyene._read_info_network"]}
{"id": "C250", "title": "Every element with an ID is in the data (refuted)", "statement": "An element whose cells give no parameter leaves nothing in the data.", "quantifier": "for all sheets of elements", "why_tests_cant": "needs elements without any parameter", "anchors": ["pyensys/engines/pyeneI.py::excel2pyene._read_info_network"]}
{"id": "C251", "title": "All accepted columns reach the data (refuted)", "statement": "The length of a branch and the pieces and the model of the cost of a generator are accepted as titles but never reach the data.", "quantifier": "for all sheets of elements", "why_tests_cant": "absence in every result", "anchors": ["pyensys/engines/pyeneI.py::excel2pyene._read_info_network"]}
{"id": "C252", "title": "Tree of a workbook", "statement": "Blocks of names, inputs, outputs and weights, apart from each other, give the parameters of the tree: every value with its level and the name at its place in lower case, or an empty name.", "quantifier": "for all layouts of blocks, levels and values", "why_tests_cant": "any number of blocks, levels and rows between them", "anchors": ["pyensys/engines/pyeneI.py::excel2pyene._read_info_tree", "pyensys/engines/pyeneI.py::excel2pyene._load_balance_tree"]}
{"id": "C253", "title": "Parameters of the tree that are read again are replaced (refuted)", "statement": "Of the new values of a level the last one is written at the first place, and all other places keep what they had.", "quantifier": "for all pairs of sheets with the same level", "why_tests_cant": "needs a level that is read twice", "anchors": ["pyensys/engines/pyeneI.py::excel2pyene._read_info_tree"]}
{"id": "C254", "title": "A title ends the block above it (refuted)", "statement": "Without an empty cell between two blocks of the tree the title and all levels of the second belong to the first.", "quantifier": "for all pairs of blocks", "why_tests_cant": "any number of levels", "anchors": ["pyensys/engines/pyeneI.py::excel2pyene._read_info_tree"]}
{"id": "C255", "title": "Profiles of a workbook", "statement": "From a sheet with blocks of profiles every value is read, in order, with its hour, its element and the lines of its block.", "quantifier": "for all layouts of blocks, elements and hours", "why_tests_cant": "any number of blocks, lines, elements and hours", "anchors": ["pyensys/engines/pyeneI.py::excel2pyene._read_profile"]}
{"id": "C256", "title": "Profiles are applied to parameters", "statement": "With the option for representative periods, profiles that fit the parameters are used: parameters that no profile is about stay in order, and every other parameter comes once for each value of the profiles about it, times the value, with its day and hour. Without the option nothing changes.", "quantifier": "for all stores of parameters and lists of profiles that fit them", "why_tests_cant": "any number of profiles, types and elements", "anchors": ["pyensys/engines/pyeneI.py::excel2pyene._correlate_information"]}
{"id": "C257", "title": "Group and zone of a profile tell its elements (refuted)", "statement": "Of profiles of the same type, subtype, name and ID the group and zone of the first count: its elements get the values of all, and elements of the others may get none.", "quantifier": "for all stores and lists of profiles that fit them", "why_tests_cant": "needs several groups in one list", "anchors": ["pyensys/engines/pyeneI.py::excel2pyene._correlate_information"]}
{"id": "C258", "title": "A profile of a group is for its elements only (refuted)", "statement": "A profile of a group is also applied to elements with no group and to those of groups in whose names it occurs.", "quantifier": "for all stores, groups and elements", "why_tests_cant": "any names around the name of the group", "anchors": ["pyensys/engines/pyeneI.py::excel2pyene._correlate_information"]}
{"id": "C259", "title": "Groups of profiles can be numbers (refuted)", "statement": "A group that is a number makes the reader fail with TypeError when an element with the name and the subtype of the profile has a group.", "quantifier": "for all stores, profiles and numbers", "why_tests_cant": "types of cells are mixed", "anchors": ["pyensys/engines/pyeneI.py::excel2pyene._correlate_information"]}
{"id": "C260", "title": "One value for each hour of a day (refuted)", "statement": "Two profiles about a parameter for the same hour of the same day, such as those of two of its subtypes, both leave a value with the same characteristics.", "quantifier": "for all stores and lists of profiles that fit them", "why_tests_cant": "needs overlapping profiles anywhere in the list", "anchors": ["pyensys/engines/pyeneI.py::excel2pyene._correlate_information"]}
{"id": "C261", "title": "The profile of an element replaces that of all (refuted)", "statement": "After profiles of all elements those of one element remove only its first value, so that it keeps all others next to its own.", "quantifier": "for all stores and all numbers of values", "why_tests_cant": "any number of hours", "anchors": ["pyensys/engines/pyeneI.py::excel2pyene._correlate_information"]}
{"id": "C262", "title": "Connections of a workbook", "statement": "From the first sheet of connections every block is read, and the model gets one connection for each ID of an element that a connection of all elements takes by all its subtypes, or its group, or its zone.", "quantifier": "for all layouts of blocks and stores of parameters", "why_tests_cant": "any number of blocks, rows and elements", "anchors": ["pyensys/engines/pyeneI.py::excel2pyene._read_energy_connections"]}
{"id": "C263", "title": "Connections of a single element reach the model (refuted)", "statement": "A sheet whose connections name single elements adds nothing to the model.", "quantifier": "for all sheets of such connections", "why_tests_cant": "absence in every result", "anchors": ["pyensys/engines/pyeneI.py::excel2pyene._read_energy_connections"]}
{"id": "C264", "title": "Connections are read once (refuted)", "statement": "After a second sheet of connections the model has all connections of the first twice.", "quantifier": "for all pairs of sheets", "why_tests_cant": "any contents of both sheets", "anchors": ["pyensys/engines/pyeneI.py::excel2pyene._read_energy_connections"]}
{"id": "C265", "title": "Sheets can come in any order (refuted)", "statement": "A sheet of connections of all elements of a type before the sheet of the type makes the reader fail with KeyError.", "quantifier": "for all workbooks with such a sheet", "why_tests_cant": "any sheets before and after", "anchors": ["pyensys/engines/pyeneI.py::excel2pyene._read_energy_connections", "pyensys/engines/pyeneI.py::excel2pyene.read_excel"]}
{"id": "C266", "title": "Other workbooks can be given by paths (refuted)", "statement": "If a sheet of options has a path the reader ends with TypeError, whatever else is in the workbook.", "quantifier": "for all workbooks with a path", "why_tests_cant": "any sheets around it", "anchors": ["pyensys/engines/pyeneI.py::excel2pyene.read_excel"]}
{"id": "C267", "title": "Variables can be keys of connections (refuted)", "statement": "The name of a variable as the first key of the first block raises UnboundLocalError.", "quantifier": "for all sheets with such a block", "why_tests_cant": "any rows before and after", "anchors": ["pyensys/engines/pyeneI.py::excel2pyene._read_energy_connections"]}
{"id": "C268", "title": "Order of sheets without connections", "statement": "Without connections and with at most one sheet of each kind the order of the sheets does not matter: in any order the reader fails, or gives the same options, tree and parameters.", "quantifier": "for all workbooks and permutations of their sheets", "why_tests_cant": "all permutations of any number of sheets", "anchors": ["pyensys/engines/pyeneI.py::excel2pyene.read_excel"]}
{"id": "C269", "title": "A written case file is read back as the network", "statement": "For every network whose numbers are printed as numerals, pyene2matpower writes a file that every copy of the converter reads without an error as that network: base, slack bus, one row per bus, conventional generator, line and transformer in this order, with the powers in MW, and the cost coefficients.", "quantifier": "all networks of any size, all printings of floating-point numbers that respect their value, all copies of the converter", "why_tests_cant": "the file is written for one network at a time and no test reads a written file back; rows, word breaks and semicolons must fit for all sizes", "anchors": ["pyensys/engines/pyeneI.py:757-893"]}
{"id": "C270", "title": "The limits of a generator are written in one unit", "statement": "Active and reactive limits of generators are both multiplied by the base. Refuted: the active ones are, the reactive ones are not.", "quantifier": "all networks", "why_tests_cant": "tests with a base of 1 or without reactive limits pass", "anchors": ["pyensys/engines/pyeneI.py:814-831"]}
{"id": "C271", "title": "The written file determines the network", "statement": "Different networks give different files. Refuted: networks that differ in shunts, areas, zones, initial voltages, costs of starting and stopping, short-term and emergency limits, hydropower or renewable generators give the same file.", "quantifier": "all pairs of networks that agree on the written data", "why_tests_cant": "a statement about all pairs of networks", "anchors": ["pyensys/engines/pyeneI.py:757-893"]}
{"id": "C272", "title": "A network whose tables are fine gives a readable file", "statement": "What is written without an error is read without an error. Refuted: after a generator without cost coefficients every copy of the converter rejects the file.", "quantifier": "all networks with a generator without cost coefficients at any position", "why_tests_cant": "tests use generators with costs", "anchors": ["pyensys/engines/pyeneI.py:877-889", "pyensys/Optimisers/conversion_model_mat2json.py"]}
{"id": "C273", "title": "A Boolean status is written as a readable status", "statement": "A generator whose status is a Boolean gives a readable file. Refuted: it is written as the word True or False, which every copy of the converter rejects.", "quantifier": "all networks with such a generator at any position", "why_tests_cant": "tests that write a file do not read it", "anchors": ["pyensys/engines/pyeneI.py:820-822"]}
{"id": "C274", "title": "A failed writing leaves nothing that passes as a network", "statement": "When the writer fails, what it leaves behind is not read as a network. Refuted: at a generator without a limit of active power it stops with TypeError, and what has been written is read without an error as a network without branches and costs.", "quantifier": "all networks with such a generator at any position", "why_tests_cant": "needs a failure in the middle of a file and a reader afterwards", "anchors": ["pyensys/engines/pyeneI.py:777-831"]}
{"id": "C275", "title": "A floating-point last cost coefficient is readable", "statement": "Every copy of the converter reads the cost coefficients that are written. Refuted: the copies that read the last coefficient as a whole number reject a floating-point one.", "quantifier": "all networks with such a generator at any position, all copies of the converter that read a whole number", "why_tests_cant": "the copies of the converter differ and are tested with case files with whole last coefficients", "anchors": ["pyensys/engines/pyeneI.py:877-889"]}
{"id": "C276", "title": "A PSS/E raw file is read as it says", "statement": "A raw file with a header, two or more buses and, from line 14553 on, transformers of both kinds is read without an error: base, frequency, units, buses in order, one row for each transformer of two windings, and for each of three windings three rows of a star, any two of which in series are the impedance of the pair. A supported version is kept.", "quantifier": "all files of that form with any number of buses and transformers, all numbers, blanks and further fields", "why_tests_cant": "the position of the lines of a transformer depends on the kinds of all before it", "anchors": ["pyensys/engines/pyeneI.py:310-503"]}
{"id": "C277", "title": "Only transformers of the file are written", "statement": "Every row that is written stands for a transformer of the file. Refuted: a file without transformers of two or of three windings gives a row with whatever np.empty left in memory.", "quantifier": "all files without transformers of a kind, all contents of memory", "why_tests_cant": "what uninitialised memory holds differs between runs", "anchors": ["pyensys/engines/pyeneI.py:355-362", "pyensys/engines/pyeneI.py:504-531"]}
{"id": "C278", "title": "Files with any number of buses are read", "statement": "Every file with a section of buses is read. Refuted: a single bus stops the reader with TypeError, and none with ValueError.", "quantifier": "all files with a single bus or none", "why_tests_cant": "tests use large files", "anchors": ["pyensys/engines/pyeneI.py:334-346"]}
{"id": "C279", "title": "The transformers are found where their section begins", "statement": "The section of transformers is found in any file. Refuted: reading starts at line 14553 whatever comes before it, and a file with no more lines stops the reader with IndexError.", "quantifier": "all files with up to 14553 lines; all pairs of files that agree from there on", "why_tests_cant": "the only file that the code was written for has its section there", "anchors": ["pyensys/engines/pyeneI.py:352"]}
{"id": "C280", "title": "Star buses are new", "statement": "The buses that stand for the middle of three-winding transformers differ from all buses of the file, whose numbers are at most a million, and two rows have the same one exactly when they belong to the same transformer.", "quantifier": "all files with any number of transformers", "why_tests_cant": "a statement about all pairs of transformers and buses", "anchors": ["pyensys/engines/pyeneI.py:468-503"]}
{"id": "C281", "title": "A pair of windings without reactance is read", "statement": "A three-winding transformer one of whose pairs has no reactance is read. Refuted: the reader divides by the least reactance and stops with ZeroDivisionError.", "quantifier": "all files with such a transformer at any position", "why_tests_cant": "needs a transformer with a least reactance of exactly 0", "anchors": ["pyensys/engines/pyeneI.py:453-459"]}
{"id": "C282", "title": "Reactances are limited to a hundred times the least", "statement": "No reactance of a pair counts more than a hundred times the least in size. Refuted: when one is negative, nothing is limited.", "quantifier": "all files with such a transformer", "why_tests_cant": "needs a negative reactance", "anchors": ["pyensys/engines/pyeneI.py:453-459"]}
{"id": "C283", "title": "Impedances of code 3 use the base of the windings", "statement": "Impedances given by losses and absolute value on the base of the windings are taken to the base of the system. Refuted: the base of the windings is not used, so files that differ in it give the same rows.", "quantifier": "all files with such a transformer, all bases", "why_tests_cant": "a relation between two files", "anchors": ["pyensys/engines/pyeneI.py:389-391", "pyensys/engines/pyeneI.py:444-450"]}
{"id": "C284", "title": "A version that is not supported is rejected", "statement": "A file of another version than 31, 33 and 34 is rejected. Refuted: it is read with the same rules and only no version is stored.", "quantifier": "all files of other versions", "why_tests_cant": "the warning does not stop the reader, and the rules are not those of the version", "anchors": ["pyensys/engines/pyeneI.py:310-319"]}
{"id": "C285", "title": "Bus names may hold commas", "statement": "A bus whose quoted name holds a comma is read. Refuted: at any position it stops the reader with ValueError.", "quantifier": "all names with a comma, all positions", "why_tests_cant": "names in test files have no commas", "anchors": ["pyensys/engines/pyeneI.py:334-346"]}
{"id": "C286", "title": "Buses are converted to pypsa", "statement": "The conversion of a network whose parts belong together succeeds and gives one bus for each bus, in order, with its number in the name, its voltage (1 when there is none), limits and coordinates.", "quantifier": "all networks of any size, all scenarios", "why_tests_cant": "sizes and numbers are not bounded", "anchors": ["pyensys/engines/pyeneI.py:72-101"]}
{"id": "C287", "title": "Set points are those of the generators", "statement": "A PV bus gets the set point VG of its generator and a bus without generator none out of its limits. Refuted: PV and slack buses get VM, and every PQ bus gets 0.", "quantifier": "all networks and buses", "why_tests_cant": "the array for the set points is filled but read for other buses only", "anchors": ["pyensys/engines/pyeneI.py:72-86"]}
{"id": "C288", "title": "Conventional generators are converted", "statement": "The i-th conventional generator becomes Gen{i}, at its bus, with the control that the type of the bus asks for, its limit in MW, its powers and the slope of its first piece.", "quantifier": "all networks and generators", "why_tests_cant": "the type of the bus is found through a position", "anchors": ["pyensys/engines/pyeneI.py:134-151"]}
{"id": "C289", "title": "Every generator has a component Gen{k}", "statement": "The generators of the network are named Gen1, Gen2, ... without gaps. Refuted: this holds exactly when there are no hydropower and RES generators. Hydropower is not converted and the counter is increased twice for RES. The other data of RES generators are right.", "quantifier": "all networks", "why_tests_cant": "names of RES generators are not read by any test", "anchors": ["pyensys/engines/pyeneI.py:153-168"]}
{"id": "C290", "title": "Each branch becomes a line or a transformer", "statement": "Each branch gives exactly one component: a line in ohm on the voltage of its first bus if its tap is 0, otherwise a transformer in per unit; the limit is in MVA.", "quantifier": "all networks with different numbers of buses, all branches", "why_tests_cant": "all taps and voltages", "anchors": ["pyensys/engines/pyeneI.py:234-287"]}
{"id": "C291", "title": "Lines between unknown buses are refused", "statement": "If a line begins at a bus that does not exist, the conversion ends with KeyError.", "quantifier": "all networks, all lines", "why_tests_cant": "the other parts must not stop it before", "anchors": ["pyensys/engines/pyeneI.py:236-239"]}
{"id": "C292", "title": "Demand is put at its bus", "statement": "Each bus with active demand has one load with its demand times the profile of the scenario. Proved when buses are numbered by their positions. Refuted otherwise: the load is attached to the bus whose number is the position plus one, which may not exist.", "quantifier": "all networks, buses and time steps", "why_tests_cant": "test cases have consecutive numbers", "anchors": ["pyensys/engines/pyeneI.py:195-210"]}
{"id": "C293", "title": "Reactive demand is converted", "statement": "The reactive demand of each bus is in its load. Refuted: a bus without active demand gets no load, whatever its reactive demand.", "quantifier": "all networks and buses", "why_tests_cant": "the loads of the test cases have active power", "anchors": ["pyensys/engines/pyeneI.py:198-199"]}
{"id": "C294", "title": "Tables hold the results of pypsa", "statement": "The tables hold powers, voltages, flows and losses of pypsa, in the order of the network. Proved for networks with conventional generators only and buses numbered by their positions.", "quantifier": "all such networks, all results", "why_tests_cant": "names are composed twice, in two files", "anchors": ["pyensys/engines/pyeneP.py:155-216", "pyensys/engines/pyeneI.py:30-292"]}
{"id": "C295", "title": "Results can be collected for every network that can be converted", "statement": "Results of a converted network are collected. Refuted: with a hydropower or RES generator, or when a number up to the number of buses is not used, AttributeError is raised whatever pypsa gives.", "quantifier": "all networks with such generators or numbers, all results", "why_tests_cant": "tests collect the results of one case only", "anchors": ["pyensys/engines/pyeneP.py:159-164", "pyensys/engines/pyeneP.py:185-190", "pyensys/engines/pyeneI.py:153-168"]}
{"id": "C296", "title": "Costs are those of active power", "statement": "The cost of a generator is that of its active power on the pieces of its curve. Refuted: it is that of its reactive power, and active power has no effect on costs and objective.", "quantifier": "all networks, results, generators and time steps", "why_tests_cant": "the objective is printed, not compared", "anchors": ["pyensys/engines/pyeneP.py:166-183"]}
{"id": "C297", "title": "The objective counts all time steps", "statement": "The objective is the sum of the costs in all time steps. Refuted: it is the weighted sum of the costs in the last one, and UnboundLocalError is raised without time steps or cost curves.", "quantifier": "all networks, connections and results", "why_tests_cant": "a loop variable is used after its loop", "anchors": ["pyensys/engines/pyeneP.py:218-224"]}
{"id": "C298", "title": "Files are opened for the devices of the outputs and closed", "statement": "A file of HDF5 or a workbook is opened exactly when an output asks for that device. Closing the files succeeds: refuted, without an output for HDF5 it ends with AttributeError.", "quantifier": "all lists of outputs", "why_tests_cant": "every list of devices", "anchors": ["pyensys/engines/pyeneO.py:44-65"]}
{"id": "C299", "title": "The workbook has a complete table for each output", "statement": "When the values are described by name, place, hour and ID, the workbook has one sheet for each output of the optimal power flow, in order; each value of the output at the place is in the row of its place and hour below its ID, and every number of the sheet is such a value. The loop ends.", "quantifier": "all lists of outputs with different names and of values of any length, all orders of descriptions", "why_tests_cant": "rows are found by a loop without a bound that compares groups of texts", "anchors": ["pyensys/engines/pyeneO.py:72-192"]}
{"id": "C300", "title": "An output asked for twice has two tables", "statement": "Refuted: the second table has titles only, because the values are marked as used.", "quantifier": "all names, places and values", "why_tests_cant": "an output is asked for once in the tests", "anchors": ["pyensys/engines/pyeneO.py:97", "pyensys/engines/pyeneO.py:140-192"]}
{"id": "C301", "title": "Writing ends", "statement": "The loop over the rows ends. Refuted: with a value of the first output that has no ID, it never ends normally, whatever the other values are and however long it runs.", "quantifier": "all lists of values, all numbers of steps", "why_tests_cant": "a test cannot observe that a loop does not end", "anchors": ["pyensys/engines/pyeneO.py:140-192"]}
{"id": "C302", "title": "Values with the same description are all written", "statement": "Refuted: of two values with the same name, place, hour and ID only the last one is in the table.", "quantifier": "all pairs of different values", "why_tests_cant": "no exception is raised", "anchors": ["pyensys/engines/pyeneO.py:176-191"]}
{"id": "C303", "title": "Outputs of the balance tree are written", "statement": "Refuted: an output of the balance tree with a value that has more than a name ends with TypeError or ValueError, whatever other outputs there are.", "quantifier": "all lists of outputs and values", "why_tests_cant": "no test asks for such an output", "anchors": ["pyensys/engines/pyeneO.py:193-247"]}
{"id": "C304", "title": "Every ID can be used", "statement": "Refuted: with the ID hour the number is lost or it replaces the hour.", "quantifier": "all values", "why_tests_cant": "titles of columns and IDs share a dictionary", "anchors": ["pyensys/engines/pyeneO.py:108-133"]}
{"id": "C305", "title": "A table has values of its output only", "statement": "For values with a name this is in C299. Refuted: a value without a name is put in the table of an output.", "quantifier": "all values", "why_tests_cant": "descriptions without a name", "anchors": ["pyensys/engines/pyeneO.py:148-158"]}
{"id": "C306", "title": "Outputs asked for in a workbook are read", "statement": "Each block of the sheet of outputs between begin and end that says something gives one output with the lists of its rows, in order; a block without an end is never read.", "quantifier": "all sheets with any number of blocks, rows and columns, and gaps between blocks", "why_tests_cant": "blocks are found by loops with counters over a sheet without a given size", "anchors": ["pyensys/engines/pyeneI.py:2132-2196"]}
{"id": "C307", "title": "IDs in outputs are the texts of their cells", "statement": "Refuted: texts that are no known names are turned into lower case, so that they differ from the IDs of elements, and known names are replaced by names of parameters.", "quantifier": "all texts", "why_tests_cant": "tests use names in lower case", "anchors": ["pyensys/engines/pyeneI.py:2170-2175"]}
{"id": "C308", "title": "Outputs can ask for variables of some elements", "statement": "Refuted: a row of a variable with a list that is not for all elements ends with TypeError, wherever it stands.", "quantifier": "all sheets with such a row", "why_tests_cant": "tests ask for all elements", "anchors": ["pyensys/engines/pyeneI.py:2176-2189"]}
{"id": "C309", "title": "What is asked for in a workbook is what the writer looks for", "statement": "A block that asks for a variable of a problem in a workbook gives an output with that device, name and problem, and the workbook is opened.", "quantifier": "all sheets of outputs", "why_tests_cant": "crosses the reader of workbooks and the writer of results", "anchors": ["pyensys/engines/pyeneI.py:2132-2196", "pyensys/engines/pyeneO.py:44-53"]}
{"id": "C310", "title": "Functions in a workbook are read", "statement": "Each row of a block with single titles and a list at the end gives a function with its values and all its coefficients, in order.", "quantifier": "all sheets with any number of blocks, titles, rows and coefficients", "why_tests_cant": "the number of coefficients differs from row to row", "anchors": ["pyensys/engines/pyeneI.py:2027-2130"]}
{"id": "C311", "title": "A block of functions can have one title", "statement": "Refuted: a first block with one known title always ends with AttributeError or UnboundLocalError.", "quantifier": "all sheets with such a block", "why_tests_cant": "no test has such a block", "anchors": ["pyensys/engines/pyeneI.py:2064-2096"]}
{"id": "C312", "title": "Every row of a block of functions gives a function", "statement": "Refuted: without a title of a list all rows are dropped without an exception.", "quantifier": "all blocks with two or more single titles", "why_tests_cant": "no exception is raised", "anchors": ["pyensys/engines/pyeneI.py:2097-2130"]}
{"id": "C313", "title": "A function gets the characteristics of its element", "statement": "When all parameters with the ID of the function agree, it gets exactly their characteristics other than ID and name, and nothing without such a parameter. Refuted otherwise: a bus with the ID of the generator gives its own.", "quantifier": "all lists of parameters and functions", "why_tests_cant": "IDs of elements of different kinds differ in the tests", "anchors": ["pyensys/engines/pyeneI.py:2390-2402"]}
{"id": "C314", "title": "Transformers without an impedance are rejected", "statement": "In a raw file the first transformer of two windings with losses above its impedance ends the reading with ValueError, and one whose base is zero with ZeroDivisionError.", "quantifier": "all raw files", "why_tests_cant": "the reader has no test", "anchors": ["pyensys/engines/pyeneI.py:384-391"]}
{"id": "C315", "title": "Blank and short rows in a block of functions are skipped", "statement": "Refuted: the first row with fewer values than single titles ends with IndexError, wherever it stands in its block.", "quantifier": "all sheets with such a row", "why_tests_cant": "no test has such a row", "anchors": ["pyensys/engines/pyeneI.py:2097-2117"]}
{"id": "C316", "title": "Titles of functions can be in any order", "statement": "Refuted: with titles after the one of a list the reading stops at the first row without an exception, and this row, the rest of the block and all later blocks are lost.", "quantifier": "all sheets whose first block has such titles, whatever follows", "why_tests_cant": "no exception is raised", "anchors": ["pyensys/engines/pyeneI.py:2118-2130"]}
{"id": "C317", "title": "--hydro n gives n hydropower plants", "statement": "With run-n and run-en the engine gets n plants at the buses 1 to n with 1000 MW, cost 0.01 and no baseload, whatever the other options are. A negative number of plants, pumps or RES generators ends with ValueError in every command.", "quantifier": "all options of the commands", "why_tests_cant": "any number of units and any other options", "anchors": ["pyensys/cli.py:28-39", "pyensys/cli.py:58-131", "pyensys/engines/pyeneD.py:175-199"]}
{"id": "C318", "title": "--pump p gives p pumps", "statement": "All commands with this option set p pumps at the buses 1 to p, of 1 MW and a value of 0.001 each.", "quantifier": "all options and settings before", "why_tests_cant": "any number of pumps", "anchors": ["pyensys/cli.py:59-72"]}
{"id": "C319", "title": "--res r gives r RES generators", "statement": "Refuted: for every r > 0 the arrays of capacities and costs have been replaced by numbers and the engine ends with TypeError. With r = 0 there are none.", "quantifier": "all options and settings before", "why_tests_cant": "tests do not run the commands with RES generators", "anchors": ["pyensys/cli.py:74-87", "pyensys/engines/pyeneD.py:216-226"]}
{"id": "C320", "title": "The options of run-example-hydro take effect", "statement": "--baseline is the baseload of both plants. Refuted for the others: whatever --hydro, --time, --loss and --feas are, there are 2 plants, 24 steps, no losses and feasibility. With the plants of --hydro the two baseloads would end with IndexError from 3 plants on.", "quantifier": "all options and settings before", "why_tests_cant": "all values of four options", "anchors": ["pyensys/cli.py:197-221", "pyensys/cli.py:262-286", "pyensys/cases.py:398-415"]}
{"id": "C321", "title": "--sec gives the branches to trip", "statement": "Refuted: the text becomes the list of its characters, none of which is equal to the number of a branch, and every text that is not empty ends with IndexError. Without it there is no case.", "quantifier": "all texts, networks with at least one branch, all other options", "why_tests_cant": "all texts", "anchors": ["pyensys/cli.py:151-152", "pyensys/engines/pyeneN.py:1028-1056"]}
{"id": "C322", "title": "Losses are modelled in one way", "statement": "With a positive --linearloss losses are off and it is the factor, whatever --loss is; otherwise --loss decides and there is no factor. There are never both.", "quantifier": "all options of run-n and run-en", "why_tests_cant": "all numbers", "anchors": ["pyensys/cli.py:98-101", "pyensys/cli.py:111-116"]}
{"id": "C323", "title": "Every command selects one solver", "statement": "pyomo with run-en --usepyomo, glpk in all other cases; never both or none.", "quantifier": "all commands and options", "why_tests_cant": "all commands", "anchors": ["pyensys/cli.py:118-123", "pyensys/engines/main.py:62-65"]}
{"id": "C324", "title": "The profiler runs with --profile only", "statement": "Refuted: the test is whether the option is among the arguments, and it always is.", "quantifier": "all values of the other option", "why_tests_cant": "the profiler has no visible effect", "anchors": ["pyensys/cli.py:41-46"]}
{"id": "C325", "title": "run-res runs its case", "statement": "Refuted: it ends with an exception for all options: ValueError for negative numbers of units, otherwise NameError, because the class that it asks for is defined nowhere.", "quantifier": "all options and settings before", "why_tests_cant": "no test runs the command", "anchors": ["pyensys/cli.py:237-260", "pyensys/cases.py:294-324"]}
{"id": "C326", "title": "Files of networks and trees", "statement": "A full path is used as it is; any other name is looked for among the files of the package.", "quantifier": "all names of files, all commands", "why_tests_cant": "all names", "anchors": ["pyensys/cli.py:49-54", "pyensys/cli.py:109-110"]}
{"id": "C327", "title": "Every output in a workbook has a sheet", "statement": "Refuted: without the subscript pt in the model there are no sheets and no exception; with an empty place an output of the DC OPF ends with IndexError.", "quantifier": "all outputs and values", "why_tests_cant": "models in tests have the subscript", "anchors": ["pyensys/engines/pyeneO.py:79-98"]}
{"id": "C328", "title": "An output without a name is refused", "statement": "Refuted: it gets a sheet with the title N and no values.", "quantifier": "all outputs without a name, all values with other names", "why_tests_cant": "no exception is raised", "anchors": ["pyensys/engines/pyeneO.py:79-84", "pyensys/engines/pyeneI.py:2132-2196"]}
{"id": "C329", "title": "An unknown title in a block of functions is reported", "statement": "Refuted: first in the first block it ends with UnboundLocalError; first of several in a later block it is taken for the last title before, and this block and all later ones are lost without an exception.", "quantifier": "all sheets with such a title", "why_tests_cant": "no exception is raised", "anchors": ["pyensys/engines/pyeneI.py:2052-2063", "pyensys/engines/pyeneI.py:2113-2130"]}
{"id": "C330", "title": "The other settings of the commands", "statement": "Time steps and feasibility are as asked, with the default of the command (24 and on in run-example-hydro); there are two profiles of demand and of RES; when there are weights there is one for every time step, and all are 1; run-ac has no hydropower, pumps, RES generators, cases or losses, whatever is asked.", "quantifier": "all commands and options", "why_tests_cant": "all options together", "anchors": ["pyensys/cli.py:89-108", "pyensys/cli.py:146-300", "pyensys/cases.py:40-42", "pyensys/cases.py:402-409"]}
{"id": "C331", "title": "The name of the case is the name of the file", "statement": "For a path with a folder it is the text between the last slash before the last dot and this dot. Refuted for a path without folders or without a dot, which ends with IndexError after the optimisation, and for a file without an extension in a folder with a dot, which gets the name of the folder.", "quantifier": "all paths", "why_tests_cant": "positions below 0 count from the end, so that the loops go through the path again", "anchors": ["pyensys/cases.py:1081-1087", "pyensys/cases.py:1148-1154"]}
{"id": "C332", "title": "run-dist_path saves the plan", "statement": "Refuted: it ends with an exception for all paths and all plans whose rows have lines, and without a plan; with a path that has a name and a cluster that is found it is KeyError.", "quantifier": "all paths, numbers of lines and plans", "why_tests_cant": "no test runs the command", "anchors": ["pyensys/cases.py:1129-1156", "pyensys/cases.py:818-842"]}
{"id": "C333", "title": "The two screening programs agree without other demand", "statement": "Both programs accept the same answers where the reactive demand, scaled, and the additional demand of every bus add up to zero.", "quantifier": "all networks, settings and answers", "why_tests_cant": "no test runs the older program, which needs a solver", "anchors": ["pyensys/Optimisers/screening_model.py:445-449", "pyensys/Optimisers/screening_model_CLI.py:447-454", "pyensys/Optimisers/screening_model.py:466-495"]}
{"id": "C334", "title": "The older screening program plans for the demand of the case", "statement": "Its answers are exactly the operations in which every bus has only its active demand. Refuted for the reactive demand: it may accept a case, with nothing built or shed, for which the newer program has no answer.", "quantifier": "all networks, settings and answers", "why_tests_cant": "the two programs have no common test", "anchors": ["pyensys/Optimisers/screening_model.py:445-449", "pyensys/Optimisers/screening_model.py:588-608"]}
{"id": "C335", "title": "The sizes in the file of the older program", "statement": "For each branch the file lists, in increasing order, the least sufficient sizes of everything the runs propose for it (also of proposals of zero) and nothing where no run proposes anything; the plans printed are those that differ.", "quantifier": "all screening results, catalogues and trees", "why_tests_cant": "needs many runs of a solver", "anchors": ["pyensys/Optimisers/screening_model.py:743-795", "pyensys/Optimisers/screening_model.py:874-911"]}
{"id": "C336", "title": "What the older screening program assumes", "statement": "Every answer is an operation of the network without outages, with the branches in service in the case and all generators whatever their status, at 20 per unit of capacity and 1000 per unit of load not served.", "quantifier": "all networks, previous investments, multipliers and answers", "why_tests_cant": "the inputs are written in the program", "anchors": ["pyensys/Optimisers/screening_model.py:797-872"]}
{"id": "C337", "title": "The report takes the first and the last scenario", "statement": "The rows that are reported are all rows of the lowest scenario and, if there is another, of the highest one, for scenarios from 0 to 1000. Refuted above: without lower scenarios no row is reported for the first.", "quantifier": "all lists of rows", "why_tests_cant": "the tests have few scenarios", "anchors": ["pyensys/cases.py:763-784"]}
{"id": "C338", "title": "The saved costs are those of the reported scenarios", "statement": "Where the scenarios of the rows start at 0, do not exceed 1000 and do not decrease, the two total costs are those of the scenarios whose rows are reported, in millions. Refuted for other orders (the second cost is that of the scenario of the last row) and for scenarios counted from 1 (the first cost is 0).", "quantifier": "all plans that can be saved and all tables of costs", "why_tests_cant": "the tests do not save plans", "anchors": ["pyensys/cases.py:763-784", "pyensys/cases.py:844-850"]}
{"id": "C339", "title": "Which plans can be saved", "statement": "A plan is saved exactly where no row of the lowest or the highest scenario has lines and, if there are rows, one of the clusters is empty.", "quantifier": "all plans with scenarios from 0 to 1000, clusters, capacities and costs", "why_tests_cant": "the tests do not save plans", "anchors": ["pyensys/cases.py:763-784", "pyensys/cases.py:818-850"]}
{"id": "C340", "title": "What the summary of a study adds up", "statement": "With both folders and runs by pyomo with different numbers, the summary has the sums over all runs of each of the five cost components, of curtailment and of spill, and its objective is the sum of its components. Runs by GLPK add nothing; with only the folder of the summary nothing is written, with only the other folder writing it is a TypeError; a number used twice ends the study.", "quantifier": "all lists of runs, numbers, components and folders", "why_tests_cant": "the tests do not write summaries", "anchors": ["pyensys/engines/pyeneO.py:17-41", "pyensys/engines/pyeneO.py:535-547", "pyensys/engines/pyeneO.py:599-633", "pyensys/engines/pyeneO.py:701-713"]}
{"id": "C341", "title": "The saved profiles", "statement": "The saved table of profiles has a row per scenario and a column per time step, and the entry of scenario s at time t is entry s * NoTime + t of the list, times the base for renewables; shorter lists are an IndexError.", "quantifier": "all lists, numbers of scenarios and time steps, and bases", "why_tests_cant": "the tests do not read the saved profiles", "anchors": ["pyensys/engines/pyeneO.py:634-652"]}
{"id": "C342", "title": "The components of the objective in the summary", "statement": "All components of the objective of a solved model can be asked for together exactly where each can be asked for alone, and then any choice of components answers the sum of the chosen ones; so what is accumulated are the components of the model and their total is its objective part.", "quantifier": "all joint models, weights, answers, options and choices of components", "why_tests_cant": "the tests compare no components", "anchors": ["pyensys/engines/main.py:561-600", "pyensys/engines/pyeneO.py:535-547"]}
{"id": "C343", "title": "The tables saved for a solved model", "statement": "Without a model of losses, with a network and an instance of it for each scenario, there is a table per scenario with a row per time step, and each row balances: generation and curtailment are the demand with its factor, pumping and the fixed losses of the lines, of which the column of losses says nothing. Where losses are modelled and there is a line, a scenario and a time step, no tables are saved.", "quantifier": "all joint models after initialise and changes, and all answers", "why_tests_cant": "the tests do not read the saved tables", "anchors": ["pyensys/engines/pyeneO.py:671-699", "pyensys/engines/main.py:372-379", "pyensys/engines/main.py:494-524"]}
