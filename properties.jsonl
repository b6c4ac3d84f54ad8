{"id": "C01", "title": "Parent queries agree with edge queries", "statement": "After any sequence of node/edge additions, soft or directed removals, restores, updates and purges, parents_of_node(v) lists u exactly when directed_edge_exists(u, v) is true, and lists it once.", "quantifier": "every finite sequence of GraphManager operations, with every choice of arguments, started from an empty graph (undirected hard remove_edge restricted to pairs connected in both directions or in neither; the unrestricted claim is false and the witness is proved as a refutation)", "why_tests_cant": "Two redundant indexes (edges and _reverse_edges) are updated by hand in every mutator; agreement must survive every history, tests only sample a few.", "anchors": ["causy/graph.py:GraphManager.add_edge", "causy/graph.py:GraphManager.remove_edge", "causy/graph.py:GraphManager.remove_directed_edge", "causy/graph.py:parents_of_node", "causy/graph.py:directed_edge_exists"]}
{"id": "C02", "title": "No self loops and no dangling endpoints", "statement": "After any sequence of operations, including operations that raise, no directed edge u->u is reported by any query and both endpoints of every reported edge are nodes of the graph.", "quantifier": "every finite sequence of GraphManager operations, with every choice of arguments, started from an empty graph", "why_tests_cant": "The claim is about every reachable state, including those reached through raised errors.", "anchors": ["causy/graph.py:GraphManager.add_edge", "causy/graph.py:GraphManager.add_directed_edge", "causy/graph.py:GraphManager.restore_edge"]}
{"id": "C03", "title": "Rejected operations leave the graph untouched", "statement": "If add_node, add_edge, add_directed_edge, remove_edge, remove_directed_edge, restore_edge, restore_directed_edge, update_edge or update_directed_edge raises GraphError or ValueError, the graph (nodes, both edge indexes, deleted edges, histories) is exactly what it was before the call.", "quantifier": "every reachable graph and every operation with every argument", "why_tests_cant": "Error atomicity must hold for each state and argument combination; unit tests check only that the error is raised.", "anchors": ["causy/graph.py:GraphManager"]}
{"id": "C04", "title": "Soft removal and restore are inverse", "statement": "For a pair connected in both directions, remove_edge(soft_delete=True) makes every existence query on the pair false and a following restore_edge gives back exactly the edge types and metadata of both directions; no other pair is affected. The same holds for the directed variants.", "quantifier": "every reachable graph, every pair", "why_tests_cant": "Must hold for every metadata content, edge type and surrounding graph.", "anchors": ["causy/graph.py:GraphManager.remove_edge", "causy/graph.py:GraphManager.restore_edge", "causy/graph.py:GraphManager.remove_directed_edge", "causy/graph.py:GraphManager.restore_directed_edge"]}
{"id": "C05", "title": "Hard removal and restore are inverse", "statement": "For a pair connected in both directions, remove_edge followed by restore_edge gives back the edge with its metadata in each direction and its edge type.", "quantifier": "every reachable graph, every pair", "why_tests_cant": "Depends on the metadata of both directions, which tests always choose equal.", "anchors": ["causy/graph.py:GraphManager.remove_edge", "causy/graph.py:GraphManager.restore_edge"]}
{"id": "C06", "title": "Purging is invisible to queries", "statement": "purge_soft_deleted_edges changes no answer of edge_exists, directed_edge_exists, undirected_edge_exists, parents_of_node, edge_of_type_exists, and afterwards no soft-deleted entry is left; it never raises on a reachable graph.", "quantifier": "every reachable graph and every pair of nodes", "why_tests_cant": "Purging iterates over the whole table and mutates it; any history of soft removals may precede it.", "anchors": ["causy/graph.py:GraphManager.purge_soft_deleted_edges", "causy/graph.py:GraphBaseAccessMixin"]}
{"id": "C07", "title": "Edge classification is coherent", "statement": "For any two nodes exactly one of: not adjacent, only u->v, only v->u, undirected; edge_exists and undirected_edge_exists are symmetric; edge_exists(u,v) holds iff directed_edge_exists holds in at least one direction.", "quantifier": "every graph state and every pair of ids, known or unknown", "why_tests_cant": "Symmetry and exclusivity range over all states, including soft-deleted and one-way entries.", "anchors": ["causy/graph.py:edge_exists", "causy/graph.py:directed_edge_exists", "causy/graph.py:undirected_edge_exists", "causy/edge_types.py:only_directed_edge_exists"]}
{"id": "C08", "title": "Edge mutations are local", "statement": "An edge operation on the pair (u,v) changes existence, type and metadata of no pair other than u->v and v->u, and changes no node.", "quantifier": "every finite sequence of GraphManager operations, with every choice of arguments, started from an empty graph; every other pair", "why_tests_cant": "A frame condition over all other pairs in all states.", "anchors": ["causy/graph.py:GraphManager"]}
{"id": "C09", "title": "Reading the value of an existing edge succeeds", "statement": "edge_value(u,v) and edge_type(u,v) return a value, without raising, whenever edge_exists(u,v) is true.", "quantifier": "every reachable graph and pair", "why_tests_cant": "Fails only for graphs whose single live direction is v->u with no u->v entry, a state produced by orientation followed by a purge.", "anchors": ["causy/graph.py:edge_value", "causy/graph.py:edge_type"]}
{"id": "C10", "title": "Edge history is append-only", "statement": "Whatever operations and actions are executed, the history list of every ordered pair only ever grows by appending.", "quantifier": "every sequence of graph operations and applied actions", "why_tests_cant": "A statement over all histories.", "anchors": ["causy/graph.py:add_edge_history", "causy/graph.py:_init_edge", "causy/graph_model.py:_take_action"]}
{"id": "C11", "title": "Path enumeration is exact", "statement": "all_paths_on_underlying_undirected_graph(u, v) terminates and yields exactly the simple paths from u to v over adjacent nodes, each exactly once.", "quantifier": "every graph, including cyclic ones, and every pair of nodes", "why_tests_cant": "Soundness, completeness, no duplicates and termination over all graphs.", "anchors": ["causy/graph.py:all_paths_on_underlying_undirected_graph"]}
{"id": "C12", "title": "Descendants are exactly the reachable nodes", "statement": "descendants_of_node(u) terminates, also on cyclic graphs, and returns, without duplicates, exactly u and the nodes reachable from u along one-way directed edges.", "quantifier": "every graph, every node, every iteration order of Python sets", "why_tests_cant": "The shared visited set and the recursion interact; reachability must hold for all graphs.", "anchors": ["causy/graph.py:descendants_of_node"]}
{"id": "C13", "title": "A positive d-separation answer is right", "statement": "On a graph whose edges are all directed and acyclic, if are_nodes_d_separated_dag(u, v, S) with S given as nodes not containing u or v answers True, then u and v are d-separated by S in the textbook sense.", "quantifier": "every DAG, every u, v and S", "why_tests_cant": "Quantifies over all DAGs and all paths in them.", "anchors": ["causy/graph.py:are_nodes_d_separated_dag", "causy/graph.py:_is_a_collider_blocking", "causy/graph.py:_is_a_non_collider_in_conditioning_set"]}
{"id": "C14", "title": "A negative d-separation answer is right", "statement": "On a DAG, if are_nodes_d_separated_dag(u, v, S) answers False then u and v are d-connected given S.", "quantifier": "every DAG, every u, v and S", "why_tests_cant": "Needs a path with two colliders visited in an unlucky order, which tests do not contain.", "anchors": ["causy/graph.py:are_nodes_d_separated_dag", "causy/graph.py:_is_a_collider_blocking"]}
{"id": "C15", "title": "d-separation is symmetric", "statement": "are_nodes_d_separated_dag(u, v, S) equals are_nodes_d_separated_dag(v, u, S).", "quantifier": "every DAG, every u, v and S", "why_tests_cant": "Symmetry over all graphs; the implementation scans paths directionally.", "anchors": ["causy/graph.py:are_nodes_d_separated_dag"]}
{"id": "C16", "title": "Directed path queries decide reachability", "statement": "On an acyclic graph without soft-deleted entries, directed_path_exists(u, v) terminates and is true exactly when v can be reached from u by one or more directed edges.", "quantifier": "every acyclic graph and pair", "why_tests_cant": "Termination and exactness for all acyclic graphs; outside that class the claim is refuted (soft-deleted entries are followed, cycles never end).", "anchors": ["causy/graph.py:directed_path_exists"]}
{"id": "C17", "title": "Directed path listing returns only genuine paths, and all of them", "statement": "directed_paths(u, v) returns exactly the directed paths from u to v of an acyclic graph.", "quantifier": "every acyclic graph and pair", "why_tests_cant": "Completeness over all graphs; false when a direct edge and a longer path coexist.", "anchors": ["causy/edge_types.py:directed_paths"]}
{"id": "C18", "title": "A dry run does not touch the graph", "statement": "Taking actions in dry-run mode leaves the graph identical, reports every proposed action as taken and never raises.", "quantifier": "every graph and every list of results", "why_tests_cant": "Over all states and all action lists.", "anchors": ["causy/graph_model.py:_take_action"]}
{"id": "C19", "title": "Each action has exactly its documented effect", "statement": "Applying one action: when its guard holds it changes exactly the edge state it names (and appends it to the edge history of exactly the directions it names), when the guard fails or it is DO_NOTHING the graph is unchanged and the action is not reported as taken.", "quantifier": "every graph with consistent indexes, every action kind and pair", "why_tests_cant": "Nine action kinds times all graph states.", "anchors": ["causy/graph_model.py:_take_action", "causy/graph.py:GraphManager"]}
{"id": "C20", "title": "Reported actions are a subsequence of the proposed ones", "statement": "The list of actions taken returned for a step is a subsequence of all proposed actions, contains no DO_NOTHING when applied, and all proposed actions are the concatenation of the results of the single tests in order.", "quantifier": "every graph, every list of results", "why_tests_cant": "Over all result lists.", "anchors": ["causy/graph_model.py:_take_action", "causy/graph_model.py:execute_pipeline_step"]}
{"id": "C21", "title": "The action log replays to the same graph", "statement": "Re-applying the actions reported as taken by a run, in order, to the starting graph reproduces the final edges, metadata and histories.", "quantifier": "every graph, every list of results that is applied without error", "why_tests_cant": "A statement over all executions.", "anchors": ["causy/graph_model.py:_take_action"]}
{"id": "C22", "title": "Every reported action changed the graph", "statement": "An action that is reported as taken changed at least one edge.", "quantifier": "every graph and action", "why_tests_cant": "Fails for a one-sided removal repeated on an edge whose other direction is live; needs that particular history.", "anchors": ["causy/graph_model.py:_take_action"]}
{"id": "C23", "title": "Combination generator is exact", "statement": "AllCombinationsGenerator yields every subset of nodes whose size lies between min and max (capped by the number of nodes) exactly once, listed in node order, smaller sizes first.", "quantifier": "every node list and every min/max", "why_tests_cant": "All sizes and all bounds.", "anchors": ["causy/generators.py:AllCombinationsGenerator"]}
{"id": "C24", "title": "Edge-pair generator is exact", "statement": "PairsWithEdgesInBetweenGenerator yields every live directed pair exactly once; in chunked mode the chunks partition them.", "quantifier": "every graph, every chunk size", "why_tests_cant": "All graphs; the chunked claim is false (pairs are produced again after the chunks).", "anchors": ["causy/generators.py:PairsWithEdgesInBetweenGenerator"]}
{"id": "C25", "title": "Neighbour generator is exact", "statement": "On a fixed graph PairsWithNeighboursGenerator yields for every live directed pair (x,y), and every size in range, each subset of the other neighbours of x of that size exactly once, each together with (x,y) in front; a minimum below 2 is rejected.", "quantifier": "every graph, every min/max, every set iteration order, every shuffle", "why_tests_cant": "All graphs, sizes and orders.", "anchors": ["causy/generators.py:PairsWithNeighboursGenerator"]}
{"id": "C26", "title": "Skeleton of PC is the true skeleton", "statement": "If every independence decision agrees with d-separation in a DAG D over the variables, then after the PC skeleton phase two variables are adjacent exactly when they are adjacent in D, and every removed pair carries a separating set that really d-separates it in D.", "quantifier": "every finite DAG, every order of the variables, every set iteration order", "why_tests_cant": "Correctness over all DAGs and all execution orders; tests check a handful of graphs on random data.", "anchors": ["causy/causal_discovery/constraint/algorithms/pc.py:PC", "causy/causal_discovery/constraint/independence_tests/common.py:CorrelationCoefficientTest", "causy/causal_discovery/constraint/independence_tests/common.py:PartialCorrelationTest", "causy/causal_discovery/constraint/independence_tests/common.py:ExtendedPartialCorrelationTestMatrix", "causy/generators.py"]}
{"id": "C27", "title": "PC orients every v-structure", "statement": "Under the same assumption, every unshielded collider x->z<-y of D is oriented as such in the result of PC.", "quantifier": "every finite DAG, every variable order and set iteration order", "why_tests_cant": "All DAGs.", "anchors": ["causy/causal_discovery/constraint/orientation_rules/pc.py:ColliderTest", "causy/causal_discovery/constraint/algorithms/pc.py:PC"]}
{"id": "C28", "title": "Every arrow PC draws is true", "statement": "Under the same assumption, every edge that PC orients one-way points in the direction it has in D; consequently the directed part of the result is acyclic.", "quantifier": "every finite DAG, every variable order and set iteration order", "why_tests_cant": "All DAGs and all rule interleavings.", "anchors": ["causy/causal_discovery/constraint/orientation_rules/pc.py", "causy/causal_discovery/constraint/algorithms/pc.py:PC_ORIENTATION_RULES"]}
{"id": "C29", "title": "The orientation loop terminates on every graph", "statement": "Executing the orientation rule loop ends after at most (number of live directed edges + 2) iterations, whatever the graph, whatever the test results that produced it and whatever conflicts it contains.", "quantifier": "every graph produced by the skeleton phase for arbitrary, even contradictory, test outcomes; every set iteration order", "why_tests_cant": "Termination over all inputs.", "anchors": ["causy/common_pipeline_steps/logic.py:Loop", "causy/causal_discovery/constraint/orientation_rules/pc.py", "causy/common_pipeline_steps/exit_conditions.py"]}
{"id": "C30", "title": "PC stops only when no rule applies", "statement": "When the orientation loop ends, no rule would remove a further edge; under the d-separation assumption the result is closed under the four Meek rules.", "quantifier": "every graph / every DAG", "why_tests_cant": "Fixpoint property of a loop over all graphs.", "anchors": ["causy/common_pipeline_steps/logic.py:Loop", "causy/causal_discovery/constraint/orientation_rules/pc.py"]}
{"id": "C31", "title": "PC returns the equivalence class of D", "statement": "Under the d-separation assumption the result of PC is the completed partially directed graph of D: an edge is left undirected exactly when two DAGs that have the same skeleton and v-structures as D disagree on it.", "quantifier": "every finite DAG, every variable order and set iteration order", "why_tests_cant": "Completeness of the orientation rules over all DAGs.", "anchors": ["causy/causal_discovery/constraint/algorithms/pc.py:PC", "causy/causal_discovery/constraint/orientation_rules/pc.py"]}
{"id": "C32", "title": "PC and PCClassic agree", "statement": "Under the d-separation assumption PC and PCClassic leave the same adjacencies and the same directed edges, for any two orders of the variables.", "quantifier": "every finite DAG, every pair of variable orders and set orders", "why_tests_cant": "Equality of two algorithms over all inputs.", "anchors": ["causy/causal_discovery/constraint/algorithms/pc.py:PC", "causy/causal_discovery/constraint/algorithms/pc.py:PCClassic"]}
{"id": "C33", "title": "PCStable recovers the skeleton and draws only true arrows", "statement": "Under the d-separation assumption PCStable has the skeleton of D and every one-way edge of its result agrees with D.", "quantifier": "every finite DAG", "why_tests_cant": "Depends on soft-deleted edges surviving into the collider phase; needs specific graphs.", "anchors": ["causy/causal_discovery/constraint/algorithms/pc.py:PCStable", "causy/common_pipeline_steps/logic.py:ApplyActionsTogether", "causy/causal_discovery/constraint/orientation_rules/pc.py:ColliderTest"]}
{"id": "C34", "title": "Parallel skeleton phase is schedule independent", "statement": "Under the d-separation assumption the parallel tests remove exactly the non-adjacent pairs whatever the order in which worker results arrive and however stale the graph snapshots of the workers are.", "quantifier": "every DAG, every arrival order, every snapshot staleness", "why_tests_cant": "Schedules cannot be enumerated by tests.", "anchors": ["causy/causal_discovery/constraint/algorithms/pc.py:ParallelPC", "causy/graph_model.py:execute_pipeline_step", "causy/causal_discovery/constraint/independence_tests/common.py"]}
{"id": "C35", "title": "Discovery never invents edges", "statement": "Whatever the test outcomes, no pipeline built from the shipped discovery steps makes a pair adjacent (or a direction live) that was not so before, except through explicit restores.", "quantifier": "every graph, every test outcome, every step", "why_tests_cant": "All outcomes and all histories.", "anchors": ["causy/graph_model.py:_take_action", "causy/causal_discovery/constraint/orientation_rules/pc.py", "causy/causal_discovery/constraint/independence_tests/common.py"]}
{"id": "C36", "title": "Collider orientation keeps adjacencies", "statement": "Whatever separating sets are recorded, one ColliderTest step with either conflict strategy on a skeleton (every edge live in both directions) leaves every adjacent pair adjacent.", "quantifier": "every graph and history", "why_tests_cant": "Conflicting colliders arise only for contradictory test outcomes, which are infinite in number.", "anchors": ["causy/causal_discovery/constraint/orientation_rules/pc.py:ColliderTest", "causy/causal_discovery/constraint/orientation_rules/pc.py:filter_unapplied_actions", "causy/causal_discovery/constraint/orientation_rules/pc.py:generate_restores"]}
{"id": "C37", "title": "Orientation keeps adjacencies", "statement": "Whatever the test outcomes, the orientation loop never makes an adjacent pair non-adjacent.", "quantifier": "every graph", "why_tests_cant": "False: two opposite removals proposed in one step delete the edge; needs a conflicting graph.", "anchors": ["causy/causal_discovery/constraint/orientation_rules/pc.py:FurtherOrientTripleTest", "causy/graph_model.py:_take_action"]}
{"id": "C38", "title": "A PC run does not crash", "statement": "If none of the numeric tests raises, a PC run on data with at least one variable completes without an exception, whatever the outcomes of the tests.", "quantifier": "every data set, every outcome of the tests, every set order", "why_tests_cant": "All outcomes.", "anchors": ["causy/causal_discovery/constraint/algorithms/pc.py:PC", "causy/graph_model.py"]}
{"id": "C39", "title": "The run log has one entry per step", "statement": "After execute_pipeline_steps the action history has grown by exactly one entry per pipeline step in pipeline order; the entry of a loop holds one sub-entry per inner step and iteration.", "quantifier": "every pipeline and graph", "why_tests_cant": "All pipelines.", "anchors": ["causy/graph_model.py:execute_pipeline_step_with_progress", "causy/common_pipeline_steps/logic.py"]}
{"id": "C40", "title": "Graph is free of soft-deleted edges after a run", "statement": "After execute_pipeline_steps no soft-deleted edge is left in the graph that is stored and served.", "quantifier": "every pipeline and graph", "why_tests_cant": "Fails exactly for pipelines that end with a logic step.", "anchors": ["causy/graph_model.py:execute_pipeline_step_with_progress", "causy/graph_utils.py:retrieve_edges"]}
{"id": "C41", "title": "Input tables become the same graph in every format", "statement": "create_graph_from_data gives one node per variable with that variable's values in row order, no edges, for a dict of columns, a list of rows and a row loader alike.", "quantifier": "every table", "why_tests_cant": "All tables and key orders.", "anchors": ["causy/graph_model.py:create_graph_from_data"]}
{"id": "C42", "title": "The starting graph is complete", "statement": "create_all_possible_edges makes every two distinct nodes connected in both directions and nothing else, for any number of nodes.", "quantifier": "every node set", "why_tests_cant": "All sizes.", "anchors": ["causy/graph_model.py:create_all_possible_edges"]}
{"id": "C43", "title": "Generated samples follow the structural equations", "statement": "For an acyclic edge list, the IID sample generator terminates and every variable equals its noise plus the sum over its incoming edges of coefficient times the value of the source variable.", "quantifier": "every acyclic edge list, every noise sequence", "why_tests_cant": "All graphs and noise.", "anchors": ["causy/sample_generator.py:IIDSampleGenerator"]}
{"id": "C44", "title": "The generator's topological order is valid", "statement": "topologic_sort returns every variable exactly once with sources before targets for acyclic edge lists, and does not return for cyclic ones.", "quantifier": "every edge list", "why_tests_cant": "Termination and order over all graphs.", "anchors": ["causy/sample_generator.py:topologic_sort"]}
{"id": "C45", "title": "Correlation is well behaved", "statement": "The Pearson coefficient stored on an edge exists exactly for variables that are not constant. It lies in [-1,1], does not depend on the order of the two variables, keeps its value when a variable is rescaled by a positive factor or shifted, changes only its sign for a negative factor, and is 1 or -1 exactly when the two variables lie on a line (exact arithmetic).", "quantifier": "all non-constant data vectors", "why_tests_cant": "All real data.", "anchors": ["causy/common_pipeline_steps/calculation.py"]}
{"id": "C46", "title": "The two partial correlation tests compute the same number", "statement": "For three variables the recursive formula of PartialCorrelationTest and the precision-matrix formula of ExtendedPartialCorrelationTestMatrix give the same partial correlation (exact arithmetic), including the code's extra diagonal rescaling. For any number of controls the matrix formula is the correlation of the residuals left by regression on the controls and a constant.", "quantifier": "all data with an invertible covariance matrix", "why_tests_cant": "All real matrices.", "anchors": ["causy/causal_discovery/constraint/independence_tests/common.py:PartialCorrelationTest", "causy/causal_discovery/constraint/independence_tests/common.py:ExtendedPartialCorrelationTestMatrix"]}
{"id": "C47", "title": "Variable values are validated exactly", "statement": "A variable accepts a value iff it has the declared type (bool is not an integer) and is among the choices when choices are given; resolving experiment variables overrides exactly the named defaults.", "quantifier": "every variable list and value", "why_tests_cant": "All values.", "anchors": ["causy/variables.py"]}
{"id": "C48", "title": "Resolved pipelines contain no references", "statement": "After resolving variables into pipeline steps no variable reference is left anywhere in a step, and steps without references are unchanged; an unknown reference raises.", "quantifier": "every step tree and variable environment", "why_tests_cant": "Nested structures of all depths.", "anchors": ["causy/variables.py:resolve_variables_to_algorithm_for_pipeline_steps"]}
{"id": "C49", "title": "Experiment result versions are found and ordered", "statement": "Saving results and listing versions of an experiment returns exactly the saved timestamps of that experiment, newest first, and loading the latest returns the newest one.", "quantifier": "every set of experiment names and save histories", "why_tests_cant": "File-name parsing over all names and histories.", "anchors": ["causy/workspaces/cli.py:_load_experiment_versions", "causy/workspaces/cli.py:_save_experiment_result", "causy/workspaces/cli.py:_load_latest_experiment_result"]}
{"id": "C50", "title": "Workspace edits keep references valid", "statement": "Through any sequence of create/remove commands every experiment refers to an existing pipeline and data loader.", "quantifier": "every command sequence", "why_tests_cant": "All histories.", "anchors": ["causy/workspaces/cli.py"]}
{"id": "C51", "title": "Loading algorithm files is confined to the working directory", "statement": "load_algorithm_by_reference with a file reference only opens files inside the current working directory.", "quantifier": "every path and working directory", "why_tests_cant": "All path strings.", "anchors": ["causy/serialization.py:load_algorithm_by_reference"]}
{"id": "C52", "title": "Every action kind can be carried out on an edge it applies to", "statement": "If the edge an action names exists (or, for a restore, is restorable), applying that action does not raise.", "quantifier": "every graph and every declared action kind", "why_tests_cant": "Depends on all graph states, including one-way and soft-deleted edges.", "anchors": ["causy/graph_model.py:_take_action", "causy/graph.py:update_edge"]}
{"id": "C53", "title": "A failing action is not half applied", "statement": "When applying a list of actions raises, the graph equals the result of applying exactly the actions before the failing one.", "quantifier": "every graph, every action list", "why_tests_cant": "Crash point can be any action on any graph.", "anchors": ["causy/graph_model.py:_take_action", "causy/graph.py:restore_edge"]}
{"id": "C54", "title": "The sample graph is the edge list", "statement": "IIDSampleGenerator.generate returns the generated columns and a graph whose nodes are exactly the variables of the edge list with those columns as values and whose edges are exactly the given edges as one-way arrows; the row-wise form of the data holds the same numbers, one row per sample, with the same columns.", "quantifier": "every acyclic edge list, coefficients, noise sequence, sample size and set iteration order", "why_tests_cant": "All edge lists and sizes; tests look at a few fixed graphs.", "anchors": ["causy/sample_generator.py:IIDSampleGenerator.generate", "causy/sample_generator.py:IIDSampleGenerator._generate_shaped_data"]}
{"id": "C55", "title": "Generated time series follow the lagged equations", "statement": "If every edge refers to a strictly earlier time step, every entry of a generated time series equals the weighted sum of the lagged source entries (or initial values when the lag reaches before the start) plus noise, and the graph has exactly one node per variable and time step, with distinct ids, and exactly the time-shifted arrows of the edge list, without directed cycle.", "quantifier": "every edge list, set iteration order, noise sequence and length", "why_tests_cant": "All graphs, lags and lengths.", "anchors": ["causy/sample_generator.py:TimeseriesSampleGenerator._generate_data", "causy/sample_generator.py:TimeseriesSampleGenerator.generate"]}
{"id": "C56", "title": "Skipping an unchanged experiment loses nothing", "statement": "After an experiment was executed and its result saved as the newest one, the check reports that no execution is needed; and whenever the check reports that, executing the experiment again would return the saved result.", "quantifier": "every workspace, pipeline, data, set of user values and directory, for collision-free hashes", "why_tests_cant": "Ranges over all pipelines, values and directory contents, and relates two code paths that resolve variables differently.", "anchors": ["causy/workspaces/cli.py:_experiment_needs_reexecution", "causy/workspaces/cli.py:_execute_experiment"]}
{"id": "C57", "title": "Experiments do not influence each other", "statement": "The outcome of executing an experiment does not depend on which experiments were executed or checked earlier in the same process.", "quantifier": "every history of executions and checks", "why_tests_cant": "All histories; the influence is through shared mutable objects.", "anchors": ["causy/workspaces/cli.py:_execute_experiment", "causy/serialization.py:load_algorithm_by_reference", "causy/graph_model.py:graph_model_factory"]}
{"id": "C58", "title": "Listing queries agree with pair queries", "statement": "get_siblings, retrieve_edges, edge_of_type_exists and retrieve_edge_history list exactly what the queries about single pairs report: the undirected neighbours, one edge per existing direction, the edges of the given type, and the history entries with the given action in order.", "quantifier": "every graph reachable by graph operations, every node, pair, type and action", "why_tests_cant": "All graphs reachable by any sequence of operations.", "anchors": ["causy/graph.py:get_siblings", "causy/graph.py:retrieve_edges", "causy/graph.py:edge_of_type_exists", "causy/graph.py:retrieve_edge_history"]}
{"id": "C59", "title": "Effect estimation fills every directed edge", "statement": "The direct-effect step changes no edge. When it completes, every directed edge u -> v carries under direct_effect the coefficient of u in the regression of v on u and all other nodes with an edge into v, its other data is kept, and undirected edges keep their data.", "quantifier": "every graph reachable by graph operations and actions, every regression outcome; and the end of every run under perfect tests", "why_tests_cant": "All graphs and all regression outcomes.", "anchors": ["causy/causal_effect_estimation/multivariate_regression.py:ComputeDirectEffectsInDAGsMultivariateRegression.process", "causy/graph.py:parents_of_node"]}
{"id": "C60", "title": "Direct effects adjust for the causes of the effect variable", "statement": "With perfect independence tests the covariates used for the effect of u on v are exactly the other direct causes of v in the generating DAG.", "quantifier": "every DAG and data with perfect tests", "why_tests_cant": "All DAGs; whether an undirected edge is left next to a directed one depends on the global structure.", "anchors": ["causy/causal_effect_estimation/multivariate_regression.py:ComputeDirectEffectsInDAGsMultivariateRegression.process", "causy/graph.py:parents_of_node"]}
{"id": "C61", "title": "The regression test agrees with the matrix test", "statement": "The number computed by ExtendedPartialCorrelationTestLinearRegression for two variables and a set of controls is the partial correlation that ExtendedPartialCorrelationTestMatrix computes from the same data (exact arithmetic).", "quantifier": "all data with an invertible covariance matrix, any number of controls", "why_tests_cant": "All real data; agreement on examples does not show that the two formulas are the same function.", "anchors": ["causy/causal_discovery/constraint/independence_tests/common.py:partial_correlation_regression", "causy/causal_discovery/constraint/independence_tests/common.py:ExtendedPartialCorrelationTestMatrix"]}
{"id": "C62", "title": "Test decisions follow the strength of the correlation", "statement": "An independence test answers exactly when the correlation is not perfect and there are at least three more observations than controls. Its decision depends only on the absolute value of the correlation, and a stronger correlation or more observations never turn 'dependent' into 'independent'. A correlation of zero is judged independent for every threshold below 1. The matrix test never fails on data with an invertible covariance matrix.", "quantifier": "all correlations, sample sizes, numbers of controls, thresholds, and monotone distribution functions", "why_tests_cant": "All real numbers and all sample sizes.", "anchors": ["causy/causal_discovery/constraint/independence_tests/common.py:CorrelationCoefficientTest.process", "causy/causal_discovery/constraint/independence_tests/common.py:PartialCorrelationTest.process", "causy/causal_discovery/constraint/independence_tests/common.py:ExtendedPartialCorrelationTestMatrix.process"]}
{"id": "C63", "title": "Direct effects recover the coefficients of a linear model", "statement": "If the effect variable is a linear combination of the cause and the covariates plus noise uncorrelated with them, and no column is a combination of the others, the stored direct effect is the coefficient of the cause. It does not depend on the zero point of the effect variable.", "quantifier": "all data, any number of covariates", "why_tests_cant": "All real data and models.", "anchors": ["causy/causal_effect_estimation/multivariate_regression.py:ComputeDirectEffectsInDAGsMultivariateRegression.process"]}
{"id": "C64", "title": "The correlation step stores one number per pair", "statement": "After the correlation step of a PC run, every two variables are still connected both ways and the edge data of both directions is exactly the correlation coefficient of their two columns, computed in the order of the data.", "quantifier": "every data set, every outcome of the coefficient function", "why_tests_cant": "All data sets and pairs.", "anchors": ["causy/common_pipeline_steps/calculation.py:CalculatePearsonCorrelations", "causy/graph_model.py"]}
{"id": "C65", "title": "Every missing edge has a recorded separating set", "statement": "Whatever the independence tests answer, after the skeleton phase of PC, PCClassic, PCStable and ParallelPC two variables are connected both ways or not at all; a connected pair still carries its correlation and no removal is recorded for it; for every other pair exactly one removal is recorded, with a separating set of variables other than the two.", "quantifier": "every data set, every outcome of the tests, every set order, shuffle and worker schedule", "why_tests_cant": "All outcomes and schedules.", "anchors": ["causy/causal_discovery/constraint/independence_tests/common.py", "causy/causal_discovery/constraint/algorithms/pc.py", "causy/graph.py:retrieve_edge_history"]}
{"id": "C66", "title": "PC decides exactly what conditional independences can decide", "statement": "With tests that answer by a DAG, PC, PCClassic and ParallelPC return the same edges for two DAGs over the same variables exactly when the two DAGs imply the same conditional independences. An edge is left two-way exactly when two DAGs with these independences direct it differently, and an arrow is drawn exactly when all of them draw it.", "quantifier": "every two DAGs over the variables, every data set, test, set order and worker schedule that answers by them", "why_tests_cant": "The claim ranges over all DAGs and all conditioning sets; a test compares finitely many graphs.", "anchors": ["causy/causal_discovery/constraint/algorithms/pc.py:PC", "causy/causal_discovery/constraint/orientation_rules/pc.py", "causy/causal_discovery/constraint/independence_tests/common.py"]}
{"id": "C67", "title": "Edge types agree with the directions", "statement": "After any run of PC, PCClassic, PCStable or ParallelPC, or of any pipeline of the shipped steps without the KEEP_LAST collider strategy, an edge is typed as directed exactly where it exists in one direction only, and as undirected exactly where it exists in both; this holds also when the run stops with an error.", "quantifier": "every data set, every pipeline of these steps, every outcome of the tests, every worker schedule", "why_tests_cant": "All pipelines, outcomes and schedules; a test sees one final graph.", "anchors": ["causy/graph_model.py:AbstractGraphModel", "causy/graph.py:edge_of_type_exists", "causy/edge_types.py"]}
{"id": "C68", "title": "d-separation asked of a PC result", "statement": "When the d-separation query for CPDAGs says that two nodes of a completed pattern are separated by a set, they are d-separated by it in every DAG that the pattern stands for; when it says connected, they are not.", "quantifier": "every DAG and its pattern, every two nodes and set of nodes, every set iteration order", "why_tests_cant": "All graphs, pairs and sets.", "anchors": ["causy/graph.py:are_nodes_d_separated_cpdag", "causy/graph.py:_is_path_of_definite_status", "causy/graph.py:_is_definite_noncollider"]}
{"id": "C69", "title": "A hash of a dictionary identifies its content", "statement": "Two JSON values (variables of an experiment, options of a data loader, a dumped algorithm) have the same recorded hash exactly if they are the same value: equal up to the order of dictionary keys, with integers, floats, Booleans and strings kept apart.", "quantifier": "all JSON values with string keys, nested to any depth, with any characters in keys and strings", "why_tests_cant": "A test compares a few hashes; that no two different values share a text (through escaping, nesting or number formats) needs a unique-readability argument over all values.", "anchors": ["causy/graph_utils.py: hash_dictionary", "causy/workspaces/cli.py: _execute_experiment, _experiment_needs_reexecution", "causy/models.py: Algorithm.hash"]}
{"id": "C70", "title": "Options of a pipeline step take effect", "statement": "A pipeline step built with a threshold, chunk size, parallel flag, display name, synchronous flag or generator has exactly the given value, and the default of its class for each option not given.", "quantifier": "all step classes with any defaults, all argument combinations", "why_tests_cant": "A test passes a few values; it does not see that some values of an option are silently replaced by the default.", "anchors": ["causy/interfaces.py:PipelineStepInterface.__init__", "causy/interfaces.py:GeneratorInterface.__init__", "causy/common_pipeline_steps/placeholder.py:PlaceholderTest.__init__", "causy/causal_discovery/constraint/orientation_rules/pc.py:ColliderTest"]}
{"id": "C71", "title": "Dumped pipelines load back", "statement": "An algorithm that is written with model_dump and loaded again has the same steps with the same options, the same generators, variables and edge types, and can be run.", "quantifier": "all pipelines built by the constructors from plain values and references, nested to any depth, all class tables", "why_tests_cant": "The property ranges over all pipelines; tests load two small ones without edge types.", "anchors": ["causy/serialization.py:serialize_algorithm", "causy/serialization.py:load_algorithm_from_specification", "causy/graph_utils.py:load_pipeline_steps_by_definition", "causy/variables.py:deserialize_variable_references", "causy/interfaces.py:LogicStepInterface.__init__"]}
{"id": "C72", "title": "The correlation step only adds the coefficient", "statement": "On a graph in which every two variables are connected both ways and edges may already carry data, the correlation step fails only when the coefficient function fails; otherwise it gives the edges of every two variables the coefficient of their columns, taken in the order of the graph, and keeps the edge types, the marks and all other data of the edge from the first to the second variable. The data of the opposite direction is replaced by it, so data that differed there is lost.", "quantifier": "every reachable graph connected in all pairs, every edge data, every coefficient function", "why_tests_cant": "All graphs and all edge data; existing tests start from edges without data.", "anchors": ["causy/common_pipeline_steps/calculation.py:CalculatePearsonCorrelations", "causy/graph.py:GraphManager.update_edge", "causy/graph_utils.py"]}
{"id": "C73", "title": "A saved result is read back", "statement": "Whatever a result contains, json.dumps with causy's encoder fails only for objects the encoder does not know, and then with TypeError; otherwise reading the text gives the value back with tensors replaced by null and datetimes by their isoformat, provided dictionaries have each key once, floats are read back by float() and no string has a high surrogate directly before a low one (which is read back as one character). Two values with the same text are equal up to that replacement.", "quantifier": "every value built from null, booleans, integers, floats, strings of code points, lists, dictionaries, tensors, datetimes and other objects, at any nesting", "why_tests_cant": "All nestings, all strings with their escapes, all numbers and all layouts of the indented text.", "anchors": ["causy/serialization.py:CausyJSONEncoder", "causy/workspaces/cli.py:_save_experiment_result", "causy/workspaces/cli.py:_load_experiment_result", "causy/cli.py:execute"]}
{"id": "C74", "title": "A torn result file is never accepted", "statement": "Every proper beginning of the text of a saved result (also the empty one) is rejected by json.load with JSONDecodeError, which is a ValueError; so is a text followed by anything but white space; reading ends on every text with a value or that error.", "quantifier": "every dictionary, list or string value, every position at which its text can be cut, every text", "why_tests_cant": "Every crash point inside the write of every result.", "anchors": ["causy/workspaces/cli.py:_save_experiment_result", "causy/workspaces/cli.py:_load_latest_experiment_result", "causy/workspaces/cli.py:_load_experiment_result"]}
{"id": "C75", "title": "A saved result is loaded as the same result, or not at all", "statement": "When a finished experiment's result has been saved, loading the file gives the same result: the same algorithm reference, creation date, nodes, edges with end points, types and metadata, history of steps with their actions, variables and hashes. It can be loaded exactly when every edge has one of the three types causy ships and carries metadata made of plain values; an edge of a user-defined type makes loading fail with a KeyError, an edge without metadata or with a null in it with a ValueError. A proper prefix of the file is never loaded as a result.", "quantifier": "all results: any number of nodes, edges, nested steps and actions, any strings, any metadata and action data; every prefix of the file", "why_tests_cant": "The round trip has to hold for every graph, history and metadata value, and a crash may cut the file anywhere.", "anchors": ["causy/models.py: Result", "causy/workspaces/cli.py: _load_experiment_result, _experiment_needs_reexecution, execute", "causy/serialization.py: CausyJSONEncoder, deserialize_result", "causy/edge_types.py: EDGE_TYPES"]}
{"id": "C76", "title": "Killing `workspace execute` loses nothing that was saved, and executing again completes the work", "statement": "If the process is killed at any moment of `causy workspace execute`, every file still has the content it had, except that experiments that were executed may have a new version; all new versions but one are complete, and that one holds a beginning of its text. Executing again then ends normally and leaves for every experiment the same newest result as an undisturbed execution.", "quantifier": "all workspaces, directories, pipelines, data and moments of the kill, including in the middle of writing a file; any order of os.listdir()", "why_tests_cant": "The kill can come between any two writes and at any byte of a file.", "anchors": ["causy/workspaces/cli.py: execute, _save_experiment_result, _experiment_needs_reexecution, _load_latest_experiment_result", "causy/serialization.py: deserialize_result"]}
{"id": "C77", "title": "Executing all experiments brings every experiment up to date, and repeating it does nothing", "statement": "When `causy workspace execute` ends normally, the newest version of every experiment is the result of executing it as configured, or the check found the existing one up to date and its files are untouched. Executing again without changes executes nothing and writes nothing.", "quantifier": "all workspaces with any number of experiments, all directories, pipelines and data", "why_tests_cant": "It must hold for every workspace and every history of saved results, including experiments whose names are prefixes of each other.", "anchors": ["causy/workspaces/cli.py: execute, _experiment_needs_reexecution, _load_experiment_versions"]}
{"id": "C78", "title": "Killing a command that removes results or writes the workspace", "statement": "If `experiment clear` is killed at any moment, the versions that are left are the oldest ones, each with its content, and no other file has changed. If a command that writes workspace.yml is killed, no other file has changed and workspace.yml is as before, new, or a beginning of the new text; it may be empty.", "quantifier": "all directories, experiments and kill points", "why_tests_cant": "The kill can come at any moment.", "anchors": ["causy/workspaces/cli.py: _clear_experiment, write_to_workspace"]}
{"id": "C79", "title": "The diff command shows exactly the edges on which results differ", "statement": "For results in which variables and edge types are identified by their names: `causy workspace diff` with two or more names of experiments or versions shows one line for every pair of variables that one of the compared results connects and no other; each cell shows the type of the edge in the result of its column or is empty if there is none; a line is marked as equal just if all results have an edge there with the same type and direction; --only-differences shows just the other lines. A name of an experiment stands for its newest result, name_version for that version. A result with contradicting edges between two variables is reported.", "quantifier": "all workspaces, directories, lists of names and results with any number of edges of any types, with equal names standing for equal nodes and types", "why_tests_cant": "The comparison groups edges of any number of results by sorted names, keeps the first of each column, and compares with an equality that depends on the type; no finite set of graphs settles that no line is lost, doubled or marked wrongly.", "anchors": ["causy/workspaces/cli.py: diff, _load_latest_experiment_result, _load_experiment_result, _load_experiment_versions", "causy/interfaces.py: EdgeInterface.__eq__, EdgeTypeInterface.__eq__"]}
{"id": "C80", "title": "update-variable stores the typed value or changes nothing", "statement": "`causy workspace experiment update-variable` for a string, integer or float variable stores the value that was typed if the variable of the pipeline accepts it, and changes nothing else in the workspace; whatever is typed, the workspace is either unchanged or holds a value that the variable accepts. A text that cannot be read as the type is reported and changes nothing; a value that is not accepted raises ValueError.", "quantifier": "all workspaces, pipelines, variables, values and typed texts", "why_tests_cant": "Every text and every variable type, including choices and variables with equal names, has to be covered.", "anchors": ["causy/workspaces/cli.py: update_experiment_variable", "causy/variables.py: validate_variable_values, BaseVariable.validate_value, _PYTHON_TYPE"]}
{"id": "C81", "title": "The server answers with complete results, also while experiments are executed", "statement": "A request for the newest result of an experiment is answered with the newest complete result on disk and its version, a request for a version with that version; unknown experiments give 404, missing or unreadable results 400. While an execute command is writing at the same time, whatever the interleaving, an answer is still a complete result (never a torn one) that is at least as new as every version that was there when the request came, no request fails because of the writing except with code 400, and the request for a version gives that version.", "quantifier": "all workspaces, directories, experiments, results, running execute commands and moments at which the request looks at the directory", "why_tests_cant": "The answer depends on how the looks of a request interleave with the writes of another process; tests run one interleaving.", "anchors": ["causy/ui/server.py: get_latest_experiment, get_experiment", "causy/workspaces/cli.py: _load_latest_experiment_result, _load_experiment_result, _load_experiment_versions, _save_experiment_result, execute"]}
{"id": "C82", "title": "The server lists every experiment with its versions and takes a free port", "statement": "The list of experiments has every experiment of the workspace in order, each with exactly the versions on disk, newest first. Without PORT the server takes the smallest free port from 8000 to 65535 and fails just if there is none. A PORT that is a number is used as it is, and without a model and a workspace nothing is started.", "quantifier": "all workspaces, directories and sets of used ports", "why_tests_cant": "The directory may hold any files and any set of ports may be in use.", "anchors": ["causy/ui/server.py: get_experiments, server, is_port_in_use"]}
{"id": "C83", "title": "Edge data written by correlation and effect steps reaches just the processed edges", "statement": "With edge data as shared mutable dictionaries, as in the code: a correlation or effect step sets its value on exactly the pairs it processed, keeps all their other data, gives the opposite direction either the same new data or leaves it, and changes the data of no other edge. What recorded actions hold never changes under keys that no later step writes.", "quantifier": "all sequences of edge creations and steps over any edges, data, keys and values, applied to the graph or not", "why_tests_cant": "Whether two edges share one dictionary depends on the history of steps; a write to one edge shows on the other only after particular sequences.", "anchors": ["causy/graph.py: edge_value, update_edge, update_directed_edge", "causy/graph_model.py: execute_pipeline_step, _take_action", "causy/common_pipeline_steps/calculation.py: CalculatePearsonCorrelations.process", "causy/causal_effect_estimation/multivariate_regression.py: ComputeDirectEffectsInDAGsMultivariateRegression.process"]}
{"id": "C84", "title": "The saved result of a run is loaded back and shows the graph of the run", "statement": "After any run of shipped discovery steps on a graph made of data, also one that stopped with an error, the result made of the graph can be written to a file and loaded again. The loaded result lists the nodes in order; it shows a directed edge exactly for the one-way arrows of the graph, an undirected edge exactly for the two-way ones, each pair once and nothing else, with exactly the numbers that the edges carry. The loaded history has the steps of the run with what each did and proposed. A graph built by hand is written with exactly the types of its edges. With perfect tests the file shows exactly the equivalence class of the true DAG.", "quantifier": "all data, pipelines of shipped steps, generators, loops and schedules, all numeric routines, all variables, hashes and dates that are valid text", "why_tests_cant": "What a run leaves on edges and in its history depends on all its steps, and whether the loader accepts it on the types of every stored value.", "anchors": ["causy/workspaces/cli.py: _execute_experiment, _save_experiment_result", "causy/cli.py: execute", "causy/graph.py: retrieve_edges", "causy/serialization.py: deserialize_result, CausyJSONEncoder", "causy/models.py: Result", "causy/causal_discovery/constraint/orientation_rules/fci.py: ColliderRuleFCI.process"]}
{"id": "C85", "title": "A run uses the data only through the answers of the numeric routines", "statement": "Take two data sets with the same variables in the same order, and two sets of numeric routines (correlation, independence tests, regression, effect estimation) that answer alike on the columns of the one and of the other. Then executing the same pipeline of shipped steps and logic blocks on both raises the same exception or none, and the two graphs agree in every edge, edge type, edge metadata, edge history and action history; only the values stored in the nodes differ. For steps executed in the process pool, every outcome some schedule produces on one data set is produced by a schedule on the other.", "quantifier": "all pairs of data sets that can be loaded, all numeric routines, all pipelines built from the shipped steps, generators and logic blocks, all schedules", "why_tests_cant": "A test compares two runs; that no step looks at the data in another way (e.g. at a node's values to break ties) must hold for every step, pipeline and data set.", "anchors": ["causy/graph_model.py:AbstractGraphModel.execute_pipeline_steps", "causy/graph_model.py:AbstractGraphModel.execute_pipeline_step", "causy/common_pipeline_steps/calculation.py:CalculatePearsonCorrelations", "causy/causal_discovery/constraint/independence_tests/common.py", "causy/causal_discovery/constraint/orientation_rules/pc.py", "causy/causal_discovery/constraint/orientation_rules/fci.py", "causy/generators.py"]}
{"id": "C86", "title": "The discovered graph does not depend on units or on the order of the observations", "statement": "If the numeric routines calculate without rounding, then measuring each variable in other units (x -> a*x + b with a > 0, for each variable its own a and b) and listing the observations in another order changes nothing a pipeline of tests and orientation rules does: the same exception or none, and a graph that agrees in every edge, type, metadata, history and log. The graphs returned by PC, PCClassic and PCStable have the same edges of the same types (only estimated effects change with the units); for ParallelPC every graph that some schedule gives on one data set has the edges of one that a schedule gives on the other.", "quantifier": "all data sets with at least two observations, all changes of units, all permutations of the observations, all pipelines of correlation and matrix tests and orientation rules, all thresholds and distribution functions", "why_tests_cant": "Real-number identities about correlations, covariance matrices and their inverses for all data, composed with whole runs.", "anchors": ["causy/common_pipeline_steps/calculation.py:CalculatePearsonCorrelations", "causy/causal_discovery/constraint/independence_tests/common.py:ExtendedPartialCorrelationTestMatrix", "causy/causal_discovery/constraint/algorithms/pc.py"]}
{"id": "C87", "title": "Every edge the skeleton phase removes was found independent by a test, and every edge it keeps survived the tests on its final neighbours", "statement": "Whatever the independence tests answer, after the skeleton phase of PC, PCClassic, PCStable or ParallelPC: (1) for every two variables without an edge, the recorded separator is a set of other variables, and one of the tests found the two independent given exactly this set: the correlation test for the empty set, the partial correlation test for one variable (the matrix test in PCClassic), the matrix test for larger sets. (2) For every remaining edge x-y, the correlation test did not find x and y independent; no third variable still connected to both x and y is one given which the partial correlation test finds them independent (provided the test answers for the three pairs of the triple); and no set of two or more variables (one or more in PCClassic) still connected to x is one given which the matrix test finds x and y independent in whichever order the set is passed.", "quantifier": "all data sets that can be loaded, all answers of the numeric routines, the four algorithms, all orders in which sets are iterated, for ParallelPC all shuffles, samplings and schedules of the pool", "why_tests_cant": "The claim speaks about every conditioning set over the final neighbours and about arbitrary, also contradictory, test answers; which tests are asked depends on the removals made before, and in ParallelPC on the schedule.", "anchors": ["causy/causal_discovery/constraint/algorithms/pc.py:PC", "causy/causal_discovery/constraint/algorithms/pc.py:PCClassic", "causy/causal_discovery/constraint/algorithms/pc.py:PCStable", "causy/causal_discovery/constraint/algorithms/pc.py:ParallelPC", "causy/causal_discovery/constraint/independence_tests/common.py:CorrelationCoefficientTest", "causy/causal_discovery/constraint/independence_tests/common.py:PartialCorrelationTest", "causy/causal_discovery/constraint/independence_tests/common.py:ExtendedPartialCorrelationTestMatrix", "causy/generators.py:PairsWithNeighboursGenerator"]}
{"id": "C88", "title": "The skeleton found by PCStable does not depend on the names or the order of the columns", "statement": "If the tests give answers that do not depend on the order of their arguments and answer for every triple, then after the skeleton phase of PCStable two variables have no edge exactly if some test finds them independent given some set of other variables, whichever they are. Hence the same columns under other names, which also changes their order, give the same skeleton up to the names. The same is false for PC and PCClassic: there the name of a column can decide which of two edges remains.", "quantifier": "all data sets that can be loaded, all answers of the numeric routines with the stated symmetry, all renamings of the columns", "why_tests_cant": "Ranges over all renamings of all data sets; a test compares two runs and typically uses data whose answers are consistent with a DAG, where the order does not matter.", "anchors": ["causy/causal_discovery/constraint/algorithms/pc.py:PCStable", "causy/causal_discovery/constraint/algorithms/pc.py:PC", "causy/common_pipeline_steps/logic.py:ApplyActionsTogether", "causy/causal_discovery/constraint/independence_tests/common.py"]}
{"id": "C89", "title": "Initial values of a time series have the variance of the stationary process", "statement": "If every edge of a time series generator reaches back in time and no variable has two edges from the same source with the same lag, the initial value of every variable is drawn with the standard deviation that the variable has in the stationary process of the edge list (unit noise), provided the linear system for it has an inverse.", "quantifier": "all edge lists, all lags, all coefficients in any commutative ring (exact arithmetic), all iteration orders of the variables, every stationary covariance function", "why_tests_cant": "The claim is about every edge list and coefficient; a test compares a few random draws with a tolerance.", "anchors": ["causy/sample_generator.py: TimeseriesSampleGenerator._calculate_initial_values", "causy/sample_generator.py: TimeseriesSampleGenerator.custom_block_diagonal", "causy/sample_generator.py: TimeseriesSampleGenerator.vectorize_identity_block"]}
{"id": "C90", "title": "Generated time series are stationary", "statement": "In a generated time series with negative lags the covariance of two entries depends only on the variables and the distance in time, and equals the one of the stationary process of the edge list.", "quantifier": "all edge lists with lags, all sizes, all independent unit noise, initial values drawn independently with the computed variances", "why_tests_cant": "Covariances range over all pairs of times and all coefficients, and tests see single draws.", "anchors": ["causy/sample_generator.py: TimeseriesSampleGenerator._generate_data", "causy/sample_generator.py: TimeseriesSampleGenerator._calculate_initial_values"]}
{"id": "C91", "title": "Variables separated in the generating graph are uncorrelated given the separating set", "statement": "If data follow linear structural equations over a DAG and the noise columns of different variables are uncorrelated, then for any two variables that a set of other variables d-separates in the DAG, the correlation step and the independence tests calculate the (partial) correlation 0. If every variable has noise of its own, the covariance matrix of any choice of variables has an inverse, so that the matrix test never gives up. The sample generator makes such data out of uncorrelated noise.", "quantifier": "all DAGs, all coefficients, all numbers of observations, all noise columns that are uncorrelated in the sample, all pairs and conditioning sets (exact arithmetic)", "why_tests_cant": "The claim is about all graphs, coefficients and conditioning sets; tests on samples only see approximate values for a few of them.", "anchors": ["causy/causal_discovery/constraint/independence_tests/common.py: PartialCorrelationTest.process", "causy/causal_discovery/constraint/independence_tests/common.py: ExtendedPartialCorrelationTestMatrix.process", "causy/common_pipeline_steps/calculation.py: CalculatePearsonCorrelations.process", "causy/sample_generator.py: IIDSampleGenerator._generate_data"]}
{"id": "C92", "title": "PC recovers the graph of linear data up to what no test can tell", "statement": "If data follow linear structural equations over a DAG with uncorrelated noise in every variable, the tests are calculated exactly, and every dependence is strong enough for the test to reject independence, PC, PCClassic and ParallelPC return exactly the edges of the DAG, with an arrow where all DAGs with the same skeleton and v-structures agree and undirected otherwise.", "quantifier": "all DAGs, coefficients, data sets with these properties, all distribution functions with value 1/2 at 0, all thresholds below 1, all set iteration orders and parallel schedules", "why_tests_cant": "End-to-end tests run a few models on random samples and compare with tolerance; the claim ranges over all models and schedules.", "anchors": ["causy/causal_discovery/constraint/algorithms/pc.py: PC", "causy/causal_discovery/constraint/independence_tests/common.py: CorrelationCoefficientTest.process", "causy/causal_discovery/constraint/independence_tests/common.py: ExtendedPartialCorrelationTestMatrix.process", "causy/graph_model.py: AbstractGraphModel.execute_pipeline_steps"]}
{"id": "C93", "title": "Estimated effects are the weights of the structural equations", "statement": "If data follow linear structural equations over a DAG with uncorrelated noise in every variable, and tests and regressions are calculated exactly, then every directed edge that PC, PCClassic or ParallelPC returns carries as effect the weight of that edge in the structural equation of its target.", "quantifier": "all DAGs, weights, data sets with these properties, all set iteration orders and parallel schedules", "why_tests_cant": "Tests compare the effects of a few models on random samples with a tolerance; they do not show for which models and variables the estimate is right.", "anchors": ["causy/causal_effect_estimation/multivariate_regression.py: ComputeDirectEffectsInDAGsMultivariateRegression.process", "causy/graph.py: GraphBaseAccessMixin.parents_of_node", "causy/causal_discovery/constraint/algorithms/pc.py: PC"]}
{"id": "C94", "title": "Update hooks decide every change of a run", "statement": "Every action that a run carries out or records has passed the pre-update hooks of the algorithm: an edge whose removal a hook never lets through survives the run, and a hook that lets nothing through leaves the graph as it was. Post-update hooks are told of the actions that have been carried out and of no others, and every action passes the hooks once.", "quantifier": "all hooks, pipelines, test functions, graphs, parallel schedules and failing runs", "why_tests_cant": "The shipped tests use one hook that drops everything and one that raises, on one short pipeline; they say nothing about loops, collected or parallel steps, or other hooks.", "anchors": ["causy/graph_model.py: AbstractGraphModel._execute_pre_graph_update_hooks", "causy/graph_model.py: AbstractGraphModel._execute_post_graph_update_hooks", "causy/graph_model.py: AbstractGraphModel._take_action", "causy/common_pipeline_steps/logic.py: ApplyActionsTogether.execute", "causy/interfaces.py: GraphUpdateHook"]}
{"id": "C95", "title": "Queries contributed by edge types and extensions", "statement": "Every query that an edge type or extension of an algorithm contributes can be called on the graph of the model, no other contributed query can, the queries of the graph itself keep their meaning, and none of this depends on the other models created in the process or on the order in which Python iterates over sets.", "quantifier": "all sequences of models created in a process, all edge types and extensions, all iteration orders of sets", "why_tests_cant": "The iteration order of a set of classes differs from process to process, and the tests create models in one fixed sequence; a test cannot enumerate orders or histories.", "anchors": ["causy/graph_model.py: graph_model_factory", "causy/graph.py: Graph", "causy/graph.py: GraphManager", "causy/graph.py: GraphBaseAccessMixin", "causy/edge_types.py: DirectedEdge.GraphAccessMixin", "causy/interfaces.py: ExtensionInterface"]}
{"id": "C96", "title": "Inducing paths", "statement": "The query for an inducing path answers True if and only if there is a directed path on which all mediators are colliders.", "quantifier": "all acyclic graphs, all pairs of nodes, all sequences of models created before", "why_tests_cant": "There are no tests of the query; a test on a few graphs could not show that no graph yields True.", "anchors": ["causy/causal_discovery/constraint/algorithms/fci.py: InducingPathExtension.GraphAccessMixin.inducing_path_exists", "causy/edge_types.py: DirectedEdge.GraphAccessMixin.directed_paths", "causy/graph.py: GraphBaseAccessMixin.directed_path_exists"]}
{"id": "C97", "title": "ColliderRuleFCI marks the unshielded colliders and nothing else", "statement": "After the skeleton phase of PC or PCClassic with a perfect independence test, ColliderRuleFCI marks a direction x -> z exactly when the true DAG has an unshielded collider x -> z <- y, and leaves everything else stored about the edges as it is; on any graph it leaves triples whose outer nodes are adjacent alone.", "quantifier": "all DAGs, all perfect tests, all iteration orders of sets, all runners, all reachable graphs", "why_tests_cant": "The repository has no tests of the rule (its docstring says so); tests on a few graphs cannot show that exactly the colliders are marked for every DAG.", "anchors": ["causy/causal_discovery/constraint/orientation_rules/fci.py: ColliderRuleFCI.process", "causy/graph_model.py: AbstractGraphModel._take_action", "causy/graph.py: GraphBaseAccessMixin.retrieve_edge_history"]}
{"id": "C98", "title": "Tables with constant or repeated columns", "statement": "A PC run finishes on every table of numbers: a column that repeats another one does not prevent a result, and a column that never varies is not reported as connected to anything.", "quantifier": "all tables, all thresholds, all pools and runners, all iteration orders of sets", "why_tests_cant": "Degenerate columns make coefficients nan or exactly 1; every test and every later rule has to cope with these, for every table and at every position. Tests use generated data without such columns.", "anchors": ["causy/causal_discovery/constraint/independence_tests/common.py: CorrelationCoefficientTest.process", "causy/causal_discovery/constraint/independence_tests/common.py: PartialCorrelationTest.process", "causy/causal_discovery/constraint/independence_tests/common.py: ExtendedPartialCorrelationTestMatrix.process", "causy/common_pipeline_steps/calculation.py: CalculatePearsonCorrelations.process"]}
{"id": "C99", "title": "Contradicting colliders are resolved and reported", "statement": "When the recorded separating sets call for colliders that contradict each other, ColliderTest with KEEP_FIRST orients every collider that no kept one contradicts and reports each one it gives up as a conflict in the log; with KEEP_LAST the later one wins and the given-up one is reported as well.", "quantifier": "all graphs whose edges are two-way, all recorded separating sets, both strategies, all iteration orders of sets", "why_tests_cant": "Contradicting colliders arise only from contradictory test answers; which ones survive depends on the order of all earlier proposals of the step.", "anchors": ["causy/causal_discovery/constraint/orientation_rules/pc.py: ColliderTest.process", "causy/causal_discovery/constraint/orientation_rules/pc.py: filter_unapplied_actions", "causy/causal_discovery/constraint/orientation_rules/pc.py: generate_restores"]}
{"id": "C100", "title": "A random sample of a generator", "statement": "RandomSampleGenerator yields exactly those combinations of the wrapped generator for which its random draw came up, in the same order, never one that the wrapped generator would not yield, and passes on its errors.", "quantifier": "all generators, all sequences of random draws, all graphs", "why_tests_cant": "The draws are random; every sequence has to be covered.", "anchors": ["causy/generators.py: RandomSampleGenerator.generate"]}
{"id": "C101", "title": "Data files in any layout give the same graph", "statement": "A table stored as a JSON list of objects, as a JSON object of columns or as lines of JSON objects, by any writer and in any layout JSON permits, becomes a graph with exactly these columns and numbers; a file that is not JSON is a ValueError.", "quantifier": "all texts, all JSON values, all tables with at least one row, all column names", "why_tests_cant": "JSON allows unboundedly many spellings of the same table: white space, escapes, number formats, key orders, repeated keys.", "anchors": ["causy/data_loader.py: JSONDataLoader.load", "causy/data_loader.py: JSONLDataLoader.load", "causy/graph_model.py: AbstractGraphModel._create_from_data_loader"]}
{"id": "C102", "title": "The hash of a data loader tells whether the data changed", "statement": "Two data loaders have the same hash exactly if they load the same data; every type of data loader reference can be loaded.", "quantifier": "all files, options, loader types, importable modules", "why_tests_cant": "The claim compares every pair of files and options and all module environments.", "anchors": ["causy/data_loader.py: FileDataLoader.hash", "causy/data_loader.py: AbstractDataLoader._hash_options", "causy/data_loader.py: DynamicDataLoader._load_data_loader", "causy/data_loader.py: load_data_loader"]}
{"id": "C103", "title": "Hooks of edge types see every change and cannot disturb a run", "statement": "An edge type's hooks are called before and after every removal, addition, update and type change of an edge of that type; a hook that raises, or only looks at the graph, has no influence on the run; a hook that changes the graph leaves a graph that could be built by ordinary calls.", "quantifier": "all edge types and hooks (with own state, raising, changing the graph), all graphs reached by calls, all lists of test results", "why_tests_cant": "Hooks are arbitrary user code; the claim quantifies over all of them and over all sequences of actions.", "anchors": ["causy/graph_model.py: AbstractGraphModel._execute_hook", "causy/graph_model.py: AbstractGraphModel._take_action", "causy/interfaces.py: EdgeTypeInterface.pre_edge_remove_hook", "causy/interfaces.py: EdgeTypeInterface.post_edge_add_hook", "causy/interfaces.py: EdgeTypeInterface.pre_edge_type_change_hook"]}
{"id": "C104", "title": "A table may contain a column calculated from two others", "statement": "A table in which one column is the sum, the difference or another combination of two others is analysed like any other; all PC algorithms end well on it.", "quantifier": "all tables of numbers, all thresholds, all normal distribution functions, all algorithms and schedules", "why_tests_cant": "Whether the run ends well depends on all triples of columns and on which edges earlier tests have removed; the claim is about all tables.", "anchors": ["causy/causal_discovery/constraint/independence_tests/common.py: PartialCorrelationTest.process", "causy/causal_discovery/constraint/algorithms/pc.py: PC", "causy/causal_discovery/constraint/algorithms/pc.py: PCStable", "causy/causal_discovery/constraint/algorithms/pc.py: PCClassic"]}
{"id": "C105", "title": "A lower threshold never adds edges", "statement": "If the threshold of the independence tests is lowered, a pair of variables that was not connected stays unconnected: every edge found with the lower threshold is found with the higher one.", "quantifier": "all tables, all tests given by p-values, all pairs of thresholds, all PC algorithms, schedules and set orders", "why_tests_cant": "The tests that are asked depend on the edges removed before, hence on the threshold; the claim compares two whole runs for all data and thresholds.", "anchors": ["causy/causal_discovery/constraint/independence_tests/common.py: CorrelationCoefficientTest.process", "causy/causal_discovery/constraint/independence_tests/common.py: PartialCorrelationTest.process", "causy/causal_discovery/constraint/independence_tests/common.py: ExtendedPartialCorrelationTestMatrix.process", "causy/causal_discovery/constraint/algorithms/pc.py: PC", "causy/causal_discovery/constraint/algorithms/pc.py: PCStable"]}
{"id": "C106", "title": "The arrows of a result never form a cycle", "statement": "The graph returned by a PC algorithm has no cycle of one-way edges.", "quantifier": "all tables, all answers of the tests, all algorithms, schedules and set orders", "why_tests_cant": "The arrows are drawn from all pairs of non-adjacent variables and completed by rules until nothing changes; whether a cycle can arise depends on all answers together.", "anchors": ["causy/causal_discovery/constraint/orientation_rules/pc.py: ColliderTest.process", "causy/causal_discovery/constraint/algorithms/pc.py: PC", "causy/causal_discovery/constraint/algorithms/pc.py: PCClassic", "causy/causal_discovery/constraint/algorithms/pc.py: ParallelPC"]}
{"id": "C107", "title": "A finished model can be executed again", "statement": "Calling execute_pipeline_steps a second time on a model whose run has ended gives the same graph again.", "quantifier": "all tables, all answers of the tests, all PC algorithms, schedules and set orders", "why_tests_cant": "The second run starts from whatever graph the first left; the claim is about all results.", "anchors": ["causy/graph_model.py: AbstractGraphModel.execute_pipeline_steps", "causy/common_pipeline_steps/calculation.py: CalculatePearsonCorrelations.process", "causy/graph.py: GraphBaseAccessMixin.edge_value"]}
{"id": "C108", "title": "The graph depends on the data only through the verdicts of the tests", "statement": "If on two data sets with the same variables (or with two numeric back ends) every independence test comes to the same verdict, then a pipeline returns the same edges with the same types and the same separating sets on both, and raises on both or on neither, however much the correlations differ.", "quantifier": "all tables, numeric routines, pipelines of shipped steps with shipped loop exits, set orders and pool schedules", "why_tests_cant": "It compares pairs of runs on arbitrary data: that no step lets the size or sign of a coefficient leak into the graph cannot be seen from samples.", "anchors": ["causy/common_pipeline_steps/calculation.py: CalculatePearsonCorrelations.process", "causy/causal_discovery/constraint/independence_tests/common.py: CorrelationCoefficientTest.process", "causy/causal_discovery/constraint/independence_tests/common.py: PartialCorrelationTest.process", "causy/causal_discovery/constraint/independence_tests/common.py: ExtendedPartialCorrelationTestMatrix.process", "causy/graph_model.py: AbstractGraphModel.execute_pipeline_steps"]}
{"id": "C109", "title": "It does not matter which way a variable is counted", "statement": "In exact arithmetic, recording variables in other units, turned round (losses for profits) or not, and the observations in another order, leaves the graph as it is: the same edges with the same types and the same separating sets, and a run raises on both data sets or on neither.", "quantifier": "all tables, unit factors other than zero, orders of the observations, thresholds, pipelines of shipped steps without regression tests, set orders", "why_tests_cant": "It compares pairs of runs on arbitrary data; correlations of both signs and all partial correlations computed from them are involved.", "anchors": ["causy/common_pipeline_steps/calculation.py: CalculatePearsonCorrelations.process", "causy/causal_discovery/constraint/independence_tests/common.py: CorrelationCoefficientTest.process", "causy/causal_discovery/constraint/independence_tests/common.py: PartialCorrelationTest.process", "causy/causal_discovery/constraint/independence_tests/common.py: ExtendedPartialCorrelationTestMatrix.process"]}
{"id": "C110", "title": "The graph does not depend on the names or the order of the columns", "statement": "Renaming the columns of the data, and with that the order in which causy visits the variables, renames the variables of the graph the shipped algorithms return and changes nothing else: the same edges point the same way.", "quantifier": "all data whose tests answer by d-separation in some DAG, all injective renamings, PC, PCClassic and ParallelPC, set orders, schedules", "why_tests_cant": "It compares runs over all renamings of all data sets; a test fixes one order.", "anchors": ["causy/causal_discovery/constraint/algorithms/pc.py: PC", "causy/causal_discovery/constraint/algorithms/pc.py: PCStable", "causy/causal_discovery/constraint/orientation_rules/pc.py: ColliderTest", "causy/graph_model.py: AbstractGraphModel.create_graph_from_data"]}
{"id": "C111", "title": "Adding to a workspace keeps what is there", "statement": "Adding a pipeline, a data loader or an experiment through the command line, whatever name is typed, changes no other entry of the workspace, writes only files with plain names in the working directory, and leaves every pipeline or loader file made earlier, to which the workspace refers, as it was made.", "quantifier": "all typed names, workspaces, working directories and histories of commands", "why_tests_cant": "Names are arbitrary text and collisions depend on the whole history of commands.", "anchors": ["causy/workspaces/cli.py: _create_pipeline", "causy/workspaces/cli.py: _create_experiment", "causy/workspaces/cli.py: _create_data_loader", "causy/workspaces/cli.py: _current_workspace", "causy/workspaces/cli.py: write_to_workspace"]}
{"id": "C112", "title": "Unrelated groups of variables can be analysed together or apart", "statement": "Columns that have nothing to do with a group of columns do not influence what the algorithms say about the group: the table of the group alone gives the same edges, pointing the same way, as the whole table, and the whole table gives no edges between the groups.", "quantifier": "all DAGs with groups without arrows between them, tables whose tests answer by d-separation, PC, PCClassic and ParallelPC, set orders, schedules", "why_tests_cant": "It compares runs on different tables for all DAGs and all ways to split them.", "anchors": ["causy/causal_discovery/constraint/algorithms/pc.py: PC", "causy/causal_discovery/constraint/algorithms/pc.py: PCStable", "causy/causal_discovery/constraint/orientation_rules/pc.py: ColliderTest", "causy/common_pipeline_steps/logic.py: ApplyActionsTogether"]}
{"id": "C113", "title": "Recorded separating sets contain nothing superfluous", "statement": "For every pair of variables whose edge was removed, no variable can be left out of the recorded separating set: the tests find the two variables independent given the recorded set, but not given any smaller part of it.", "quantifier": "all tables, all answers of the tests that do not depend on the order of their arguments, all algorithms, set orders and schedules", "why_tests_cant": "It compares the recorded set with all its parts, for all tables, answers and schedules.", "anchors": ["causy/causal_discovery/constraint/algorithms/pc.py: PC", "causy/causal_discovery/constraint/algorithms/pc.py: ParallelPC", "causy/generators.py: PairsWithNeighboursGenerator.generate", "causy/generators.py: RandomSampleGenerator.generate", "causy/causal_discovery/constraint/independence_tests/common.py: ExtendedPartialCorrelationTestMatrix.process", "causy/causal_discovery/constraint/independence_tests/common.py: PartialCorrelationTest.process"]}
{"id": "C114", "title": "What `causy execute` prints and writes, and executing what `causy eject` wrote", "statement": "`causy execute` prints exactly the directions of the discovered graph, each once, and the file it writes is loaded again as a result that shows this graph and names the algorithm; when it fails it prints no direction and touches no file; killed at any moment it leaves all other files as they are and never a file that is accepted as another result. A file written by `causy eject` can be given to `causy execute`.", "quantifier": "all data files, algorithm names and pipeline files, all answers of the tests, all schedules, all moments of a crash", "why_tests_cant": "It ranges over all files, runs and crash points; no test calls these commands.", "anchors": ["causy/cli.py: execute", "causy/cli.py: eject", "causy/graph_utils.py: retrieve_edges", "causy/serialization.py: serialize_algorithm", "causy/serialization.py: load_algorithm_from_specification", "causy/causal_discovery/constraint/algorithms/__init__.py: AVAILABLE_ALGORITHMS"]}
{"id": "C115", "title": "Leaving out columns that are effects does not change what is found about the rest", "statement": "When the tests answer by d-separation, PC, PCClassic and ParallelPC find the same arrows and the same two-way edges between the columns of a smaller table as between them in the full table, provided no cause of a remaining column is left out; PCStable connects the same columns. Whichever columns are left out, no connection between the remaining ones is lost.", "quantifier": "all DAGs, all tables and all tables with fewer columns in any order, all algorithms for either of them, set orders and schedules", "why_tests_cant": "It compares two runs on different tables, for all DAGs and all choices of columns.", "anchors": ["causy/causal_discovery/constraint/algorithms/pc.py: PC", "causy/causal_discovery/constraint/algorithms/pc.py: PCClassic", "causy/causal_discovery/constraint/algorithms/pc.py: PCStable", "causy/causal_discovery/constraint/algorithms/pc.py: ParallelPC", "causy/graph_model.py: AbstractGraphModel.execute_pipeline_steps", "causy/graph_model.py: AbstractGraphModel.create_graph_from_data"]}
{"id": "C116", "title": "Estimated effects follow the units of the columns and not the order or repetition of the rows", "statement": "If the columns of a table are recorded in other units with the same zero, the rows put into another order and each row repeated equally often, then, wherever two runs draw the same edges, the estimated effect of one column on another is the same quantity in the new units: it is multiplied by the factor of the effect column and divided by the factor of the cause column. PC, PCClassic and PCStable do draw the same edges when no row is repeated.", "quantifier": "all tables, all positive factors per column, all row orders, all numbers of repetitions, all algorithms that end with the effect step, all schedules", "why_tests_cant": "It relates two runs on different tables, for all factors and all orders.", "anchors": ["causy/causal_effect_estimation/multivariate_regression.py: ComputeDirectEffectsInDAGsMultivariateRegression.process", "causy/causal_discovery/constraint/algorithms/pc.py: PC", "causy/causal_discovery/constraint/algorithms/pc.py: PCClassic", "causy/causal_discovery/constraint/algorithms/pc.py: PCStable", "causy/graph_model.py: AbstractGraphModel.execute_pipeline_steps"]}
{"id": "C117", "title": "No edge is removed on the strength of correlations that were never computed", "statement": "If no edge carries a correlation, the test of the correlations raises an error and the test of the partial correlations proposes nothing; neither changes the graph. An algorithm that leaves out the step computing the correlations therefore stops in its first test with a KeyError and the graph as it was. A correlation that is not a number is no missing one: both tests raise.", "quantifier": "all graphs and tables, all answers of the statistics, dry or not, sequential or with any schedule of the worker processes", "why_tests_cant": "It ranges over all graphs and schedules; the tests always compute the correlations first.", "anchors": ["causy/causal_discovery/constraint/independence_tests/common.py: CorrelationCoefficientTest.process", "causy/causal_discovery/constraint/independence_tests/common.py: PartialCorrelationTest.process", "causy/graph.py: GraphBaseAccessMixin.edge_value"]}
{"id": "C118", "title": "Steps that are applied together do not see each other's actions", "statement": "Every step in an ApplyActionsTogether group is asked on the graph as it was before the group; the actions are applied only when all steps have answered. If one step raises, nothing has been applied. If the steps are independence tests, neither their order in the group nor the schedule of worker processes changes which edges are left afterwards.", "quantifier": "all groups of steps, all graphs, all answers of the statistics, all orders of the group, all schedules of parallel steps", "why_tests_cant": "It ranges over all groups, orders and schedules; the tests run one group in one order.", "anchors": ["causy/common_pipeline_steps/logic.py: ApplyActionsTogether.execute", "causy/graph_model.py: AbstractGraphModel._take_action", "causy/graph_model.py: AbstractGraphModel.execute_pipeline_step", "causy/causal_discovery/constraint/algorithms/pc.py: PCStable"]}
{"id": "C119", "title": "ColliderTest draws arrows only into nodes between two unconnected ones", "statement": "On any graph, also one that already has arrows, a ColliderTest step ends well, keeps every adjacency and every arrow, and draws x -> z <- y only for nodes x and y that are not connected and whose recorded separating sets do not contain z. On the finished result of a run with correct independence decisions it changes nothing.", "quantifier": "all graphs with any mixture of arrows and two-way edges, all recorded separating sets, all iteration orders of sets; all DAGs, algorithms and schedules for finished results", "why_tests_cant": "It ranges over all graphs the step can meet; the tests run it once on a fresh skeleton.", "anchors": ["causy/causal_discovery/constraint/orientation_rules/pc.py: ColliderTest.process", "causy/common_pipeline_steps/logic.py: Loop.execute", "causy/graph_model.py: AbstractGraphModel.execute_pipeline_steps"]}
{"id": "C120", "title": "Which tables the PC algorithms can analyse", "statement": "Calculated without rounding, whether a run ends well can be read off the table. PCClassic ends well exactly if there are three rows or more and no varying column repeats another in other units. PC needs moreover, for any three columns that are all correlated with each other, four rows and that none of them is a combination of the others, unless one is constant; PCStable needs this for any three columns, and the same suffices for ParallelPC. In all other cases PCClassic and PC stop with ZeroDivisionError or ValueError.", "quantifier": "all tables of numbers, all thresholds, all normal distribution functions, all iteration orders of sets, all process pools, all orders of drawing tests, all graphs the run passes through", "why_tests_cant": "Which tests are asked depends on which edges earlier tests removed; the claim is about all tables and all schedules.", "anchors": ["causy/causal_discovery/constraint/independence_tests/common.py: PartialCorrelationTest.process", "causy/causal_discovery/constraint/independence_tests/common.py: ExtendedPartialCorrelationTestMatrix.process", "causy/causal_discovery/constraint/algorithms/pc.py: PC", "causy/causal_discovery/constraint/algorithms/pc.py: PCStable", "causy/causal_discovery/constraint/algorithms/pc.py: PCClassic", "causy/causal_discovery/constraint/algorithms/pc.py: ParallelPC"]}
{"id": "C121", "title": "The orientation rules can be rearranged, and the fourth is not needed", "statement": "With perfect independence tests the result is the same graph as that of the shipped algorithms for every algorithm that consists of one of the skeleton phases of PC, PCClassic or ParallelPC, a ColliderTest with any conflict resolution, any sequence of orientation rules on their own, in Loops or in ApplyActionsTogether, and a last Loop that contains NonColliderTest, FurtherOrientTripleTest and OrientQuadrupleTest in any order, with or without FurtherOrientQuadrupleTest. On any graph a Loop over any selection of the four rules ends, and then none of its steps changes anything.", "quantifier": "all DAGs, all data with perfect tests, all arrangements of the rules, all schedules and iteration orders of sets; for termination all graphs and all lists of rules", "why_tests_cant": "There are infinitely many arrangements and DAGs; that the fourth rule never draws anything is a theorem about graphs (Meek 1995), and no finite number of runs shows that a loop always ends.", "anchors": ["causy/common_pipeline_steps/logic.py: Loop.execute", "causy/common_pipeline_steps/logic.py: ApplyActionsTogether.execute", "causy/common_pipeline_steps/exit_conditions.py: ExitOnNoActions.check", "causy/causal_discovery/constraint/orientation_rules/pc.py: FurtherOrientQuadrupleTest.process", "causy/causal_discovery/constraint/algorithms/pc.py: PC_ORIENTATION_RULES"]}
{"id": "C122", "title": "The PC algorithms are right as soon as the tests are right where it matters", "statement": "The tests need not be right everywhere. If no test finds two variables independent that the DAG connects, and every other two variables are found independent given some set of DAG neighbours of one of them, then the edges after the skeleton phase are those of the DAG: always for PCClassic; for PC if a set of one variable consists of one that the correlation test finds independent of neither of the two; for ParallelPC if it consists of a neighbour of both; for PCStable the sets may lie anywhere. If besides, for x - z - y without an edge between x and y, every set given which x and y are found independent contains z unless x -> z <- y, then PC, PCClassic and ParallelPC, and all rearrangements of their orientation rules, show exactly the arrows that follow from the DAG. Perfect tests meet these conditions.", "quantifier": "all DAGs, all data, all numeric answers meeting the conditions, all schedules and iteration orders of sets, all arrangements of the orientation rules", "why_tests_cant": "Runs on sampled data have some wrong answers; which of them do no harm is a statement about all combinations of answers and all DAGs.", "anchors": ["causy/causal_discovery/constraint/algorithms/pc.py: PC", "causy/causal_discovery/constraint/algorithms/pc.py: PCClassic", "causy/causal_discovery/constraint/algorithms/pc.py: PCStable", "causy/causal_discovery/constraint/independence_tests/common.py: PartialCorrelationTest.process", "causy/causal_discovery/constraint/independence_tests/common.py: ExtendedPartialCorrelationTestMatrix.process", "causy/causal_discovery/constraint/orientation_rules/pc.py: ColliderTest.process"]}
{"id": "C123", "title": "Two execute commands can run at the same time", "statement": "Two execute commands may run at the same time in one workspace, in any interleaving of their steps. As long as no experiment is saved by both in the same second: at every moment every file has the content it had or is the file of an experiment with the complete text of a result, except for at most one file per command, which holds a part of such a text and which is complete once that command has ended well; neither command makes the other fail, although it may read what the other is writing; and when both have ended well the newest version of every experiment is a complete result of an execution, or both found it up to date and nothing was changed.", "quantifier": "all workspaces, directories, directory listings, execution outcomes, clocks and all interleavings of the steps of the two commands (each at its own point of checking, reading, executing or writing, with texts written in any parts), including those in which one is killed", "why_tests_cant": "The harm of running two commands at once depends on the interleaving; a test sees one.", "anchors": ["causy/workspaces/cli.py: execute", "causy/workspaces/cli.py: _save_experiment_result", "causy/workspaces/cli.py: _experiment_needs_reexecution", "causy/workspaces/cli.py: _load_latest_experiment_result", "causy/workspaces/cli.py: _load_experiment_versions"]}
{"id": "C124", "title": "Clearing an experiment while an execute command runs", "statement": "`experiment clear` may run at the same time as an execute command, in any interleaving of their steps. At every moment every file has the content it had, or is a version of the cleared experiment that is gone, or has the text of a result that the execute command has made: complete but for at most one file, and without exception once that command has ended well; no version of another experiment is ever removed. The clear command never fails; when it has ended none of the versions that were there before is left, and it tells the number of versions that it has removed.", "quantifier": "all workspaces, directories, directory listings, execution outcomes, clocks, cleared experiments and all interleavings of the steps of the two commands, including those in which one is killed", "why_tests_cant": "What is removed depends on where in its work the other command is; a test sees one interleaving.", "anchors": ["causy/workspaces/cli.py: _clear_experiment", "causy/workspaces/cli.py: clear_experiment", "causy/workspaces/cli.py: execute", "causy/workspaces/cli.py: _save_experiment_result", "causy/workspaces/cli.py: _load_latest_experiment_result"]}
{"id": "C125", "title": "Commands that edit the workspace at the same time", "statement": "Any number of commands that edit workspace.yml (add or remove pipelines, data loaders and experiments, clear, update a variable) may run at the same time. As long as none takes a step while another one is writing the file: whenever none is writing, the file holds the workspace that some of the commands, each of which has ended well, leave when they are given one after the other, so that experiments still refer to existing pipelines and data loaders; no other file has changed; and a command fails only if it fails on its own on such a workspace. Commands that cannot be carried out (something is not there, or an experiment needs it) touch no file, and without a workspace every command reports that and writes nothing.", "quantifier": "all workspaces, lists of commands, loadable pipelines, faithful YAML texts and all interleavings of reading, deciding, opening and writing", "why_tests_cant": "Which commands take effect depends on the interleaving; a test sees one.", "anchors": ["causy/workspaces/cli.py: write_to_workspace", "causy/workspaces/cli.py: _current_workspace", "causy/workspaces/cli.py: create_pipeline", "causy/workspaces/cli.py: remove_pipeline", "causy/workspaces/cli.py: create_experiment", "causy/workspaces/cli.py: clear_experiment", "causy/workspaces/cli.py: update_experiment_variable", "causy/workspaces/cli.py: remove_data_loader"]}
{"id": "C126", "title": "Steps can be put together in any order", "statement": "A user may build a pipeline from the shipped steps. If it starts with the computation of correlations, has the correlation test at most once and before the other tests, and has collider detection, orientation rules (also in loops) and effect estimation after the tests, then whatever the order, repetition and grouping within these parts, a run ends normally or with an exception of a numeric function. With perfect tests no order of the tests loses an adjacency and every pair that ends up unconnected carries a set that separates it; if the correlation test comes first and the test with any number of conditioning variables is among the others, the skeleton is exact, and with the orientation steps of PC behind it the result is the one of PC.", "quantifier": "all data, numeric functions, set orders, worker pools, shuffles and samplings, and all pipelines of the described form, of any length", "why_tests_cant": "There are infinitely many pipelines, and whether a step finds what it needs depends on what the steps before it have removed.", "anchors": ["causy/causal_discovery/constraint/independence_tests/common.py: CorrelationCoefficientTest.process", "causy/causal_discovery/constraint/independence_tests/common.py: PartialCorrelationTest.process", "causy/causal_discovery/constraint/independence_tests/common.py: ExtendedPartialCorrelationTestMatrix.process", "causy/causal_discovery/constraint/orientation_rules/pc.py: ColliderTest.process", "causy/graph_model.py: AbstractGraphModel.execute_pipeline_steps", "causy/common_pipeline_steps/logic.py: ApplyActionsTogether"]}
{"id": "C127", "title": "Own tests can be added to a pipeline", "statement": "A user may add steps with tests of their own, with any generator, in chunks or not, synchronous or not, in the worker pool or not. If such a test answers what its generator asks for without raising, and each of its results either does nothing or removes the edge of two variables together with a set that d-separates them, then with perfect shipped tests no adjacency is lost and every unconnected pair carries a set that separates it, whatever the order; and if the correlation test comes first and the test with any number of conditioning variables is among the others, the orientation steps of PC reach exactly the result of PC, whatever the own tests find. Two such pipelines find the same graph. The same holds for PC itself if the own tests come after its test with one conditioning variable.", "quantifier": "all data, DAGs, perfect numeric functions, set orders, worker pools, own steps that meet the condition, and pipelines of any length made of them and of the shipped tests, one after the other or applied together", "why_tests_cant": "The own steps are arbitrary programs; a test can only try some of them.", "anchors": ["causy/interfaces.py: PipelineStepInterface", "causy/graph_model.py: AbstractGraphModel.execute_pipeline_steps", "causy/graph_model.py: AbstractGraphModel._take_action", "causy/causal_discovery/constraint/orientation_rules/pc.py: ColliderTest.process", "causy/common_pipeline_steps/logic.py: ApplyActionsTogether"]}
{"id": "C128", "title": "Directions the user knows can be told", "statement": "A user may put steps of their own between the collider detection and the orientation loop that remove directions they know to be false, with any generator, in chunks or not, synchronous or not, in the worker pool or not. If what they tell is true of the DAG, then with perfect tests the run ends (only effect estimation can raise), the skeleton is that of the DAG, every arrow is an edge of the DAG, every arrow that PC finds without the knowledge is found, what was told stays, whoever tells more finds no less, and the result shows exactly the arrows that follow by Meek's four rules from the v-structures and from what was told. Whoever tells every direction gets the DAG.", "quantifier": "all data, DAGs, perfect numeric functions, set orders, worker pools, sets of true directions, and lists of own steps that tell some of them; after the tests of PC, or after any tests of the user with those of PCClassic among them", "why_tests_cant": "The own steps are arbitrary programs, and that nothing false and nothing too few follows has to hold for every DAG and every choice of known directions.", "anchors": ["causy/interfaces.py: PipelineStepInterface", "causy/graph_model.py: AbstractGraphModel.execute_pipeline_steps", "causy/graph_model.py: AbstractGraphModel._take_action", "causy/causal_discovery/constraint/orientation_rules/pc.py: ColliderTest.process", "causy/causal_discovery/constraint/orientation_rules/pc.py: NonColliderTest.process", "causy/causal_discovery/constraint/orientation_rules/pc.py: FurtherOrientTripleTest.process", "causy/causal_discovery/constraint/orientation_rules/pc.py: OrientQuadrupleTest.process", "causy/causal_discovery/constraint/orientation_rules/pc.py: FurtherOrientQuadrupleTest.process", "causy/common_pipeline_steps/logic.py: Loop"]}
{"id": "C129", "title": "Data and directions together give the structural equations", "statement": "If data follow linear structural equations over a DAG with uncorrelated noise in every variable, tests and regressions are calculated exactly, and PC is told some true directions after the collider detection, then every edge it directs into a variable without undirected edges, whose causes have mean 0, carries as effect its weight in the structural equations. If it is told every direction and all columns have mean 0, the result shows exactly the edges of the structural equations, each with its weight.", "quantifier": "all DAGs and weights, all data that follow them with noise in every variable and faithful correlations, all exact numeric functions, set orders, sets of true directions and lists of own steps that tell them", "why_tests_cant": "A test can check some equations, some data and some sets of known directions, but not that no others give a wrong weight.", "anchors": ["causy/causal_effect_estimation/multivariate_regression.py: ComputeDirectEffectsInDAGsMultivariateRegression.process", "causy/causal_discovery/constraint/algorithms/pc.py: PC", "causy/interfaces.py: PipelineStepInterface", "causy/sample_generator.py: IIDSampleGenerator"]}
{"id": "C130", "title": "Tiers of variables give the directions between them", "statement": "If a user's step, with or without a pool of workers and with results applied at once or one by one, after the collider detection of PC removes, for every pair of variables, the direction from a later to an earlier tier, no variable is a cause of one in an earlier tier, and tests are perfect, then the result has exactly the adjacencies of the DAG, every edge between tiers points as in the DAG, no arrow is wrong, and the arrows are exactly those that follow from the tiers and the colliders by the orientation rules. If the tiers order all causes before their effects the result is the DAG, and from linear data with means 0 and exact calculations it carries the weights of the structural equations. With any fitting tiers, linear data and exact calculations, a variable without undirected edges whose causes have mean 0 has exactly its causes as arrows, each with its weight.", "quantifier": "all DAGs, schedules of workers, tiers that fit them, perfect tests, data, set orders, ways to resolve conflicts of colliders and step limits from the square of the number of variables plus 2", "why_tests_cant": "A test can try some graphs and some tiers, but not show that no other DAG or assignment gets a wrong or missing arrow.", "anchors": ["causy/interfaces.py: PipelineStepInterface", "causy/generators.py: AllCombinationsGenerator.generate", "causy/causal_discovery/constraint/algorithms/pc.py: PC", "causy/causal_discovery/constraint/orientation_rules/pc.py: FurtherOrientQuadrupleTest.process"]}
{"id": "C131", "title": "Tiers and known directions: only forced arrows, and with tiers all of them", "statement": "Whatever true directions a user's steps tell PC after the collider detection, with perfect tests every arrow of the result is in every DAG that has the adjacencies and v-structures of the true one and the directions told. If of no triangle exactly one direction is told, as with tiers of variables, then the arrows are exactly those on which all these DAGs agree, and the two-way edges exactly those on which two of them disagree. So with tiers PC finds exactly what data and tiers determine.", "quantifier": "all DAGs, sets of true directions and assignments of tiers, perfect tests, data, set orders, schedules of workers, ways to resolve conflicts of colliders and steps that tell", "why_tests_cant": "The claim compares the result with all DAGs of a class that grows exponentially, for every DAG and all knowledge about it.", "anchors": ["causy/causal_discovery/constraint/orientation_rules/pc.py: FurtherOrientTripleTest.process", "causy/causal_discovery/constraint/algorithms/pc.py: PC", "causy/interfaces.py: PipelineStepInterface", "causy/generators.py: AllCombinationsGenerator.generate"]}
{"id": "C132", "title": "A step that tells a direction inside the loop of the rules keeps it from ending", "statement": "PC's rules run in a loop that ends after a round without actions. Put a user's step into that loop that says of an edge which way it points (by removing the other direction), together with any of the rules and any other steps that tell true directions: with perfect tests the loop never ends, although nothing changes any more. Removing a direction that is already gone counts as an action as long as the edge points the other way. A step that directs all edges between tiers of variables does the same, if there is such an edge. The same steps before the loop do no harm (C128). A step for tiers of variables that first looks whether the direction is still there can be put anywhere among the rules in the loop: the loop ends, with the result of telling the tiers before it (C130).", "quantifier": "all DAGs, sets of true directions, perfect tests, data, set orders, schedules of workers, ways to resolve conflicts of colliders, lists of steps in the loop, later steps and numbers of rounds", "why_tests_cant": "That a loop does not end cannot be seen in a run of any length.", "anchors": ["causy/graph_model.py: AbstractGraphModel._take_action", "causy/common_pipeline_steps/logic.py: Loop.execute", "causy/common_pipeline_steps/exit_conditions.py: ExitOnNoActions.check"]}
