{"claims": [
{"property": "C01", "status": "proved", "theorems": ["C01_parents_agree", "C01_unrestricted_refuted"], "note": "Proved for every history in which hard remove_edge is called on pairs present in both directions or neither; the unrestricted claim is refuted with a witness."},
{"property": "C02", "status": "proved", "theorems": ["C02_no_loops_no_dangling"], "note": "All operation histories, including raising operations."},
{"property": "C03", "status": "proved", "theorems": ["C03_rejected_is_noop", "C03_keyerror_refuted"], "note": "All histories and operations; the companion refutation shows KeyError can leave partial effects."},
{"property": "C04", "status": "proved", "theorems": ["C04_soft_remove_restore", "C04_soft_remove_restore_directed"], "note": ""},
{"property": "C05", "status": "partial", "theorems": ["C05_hard_remove_restore_partial", "C05_hard_restore_refuted"], "note": "The full claim is false of the code: restore resets the edge type to undirected and gives both directions the metadata of u->v. The partial theorem states the exact result."},
{"property": "C06", "status": "proved", "theorems": ["C06_purge_invisible"], "note": ""},
{"property": "C07", "status": "proved", "theorems": ["C07_classification"], "note": "No hypothesis on the graph state."},
{"property": "C08", "status": "proved", "theorems": ["C08_mutations_local"], "note": "All histories."},
{"property": "C09", "status": "partial", "theorems": ["C09_value_readable_partial", "C09_value_readable_refuted"], "note": "False as stated (KeyError when only the reverse direction exists); holds for the existing direction."},
{"property": "C10", "status": "proved", "theorems": ["C10_history_append_only", "C10_actions_append_only"], "note": "operations and actions"},
{"property": "C100", "status": "proved", "theorems": ["C100_sample", "C100_nothing_new"], "note": "The probability of a draw is not modelled."},
{"property": "C101", "status": "partial", "theorems": ["C101_reads_exactly", "C101_rejects", "C101_same_graph", "C101_other_file", "C101_blank_line_refuted", "C101_empty_refuted", "C101_columns_needed", "C101_rows_needed", "C101_dict_row_refuted"], "note": "json.loads accepts exactly the grammar (C101_reads_exactly, C101_rejects), and the three formats give the same nodes (C101_same_graph). False: a blank line in a JSONL file is an error (C101_blank_line_refuted), and a table without rows is a TypeError in row formats (C101_empty_refuted). A row with the key _dict replaces the table (C101_dict_row_refuted). What is accepted holds only numbers (C101_columns_needed, C101_rows_needed). Not modelled: decoding of bytes, nested lists as columns."},
{"property": "C102", "status": "partial", "theorems": ["C102_hash_partial", "C102_same_data", "C102_file_loaders", "C102_dynamic_refuted", "C102_type_refuted", "C102_options_refuted", "C102_missing"], "note": "The hash identifies bytes and options (C102_hash_partial), hence the data of loaders of one type (C102_same_data). False: the loader type is not hashed (C102_type_refuted), unused options are (C102_options_refuted), and the dynamic type can never be loaded (C102_dynamic_refuted)."},
{"property": "C103", "status": "partial", "theorems": ["C103_harmless", "C103_keeps_graph", "C103_calls", "C103_calls_in_order", "C103_announced_partial", "C103_add_never_called", "C103_type_change_only_announced", "C103_restore_refuted", "C103_type_unannounced_refuted", "C103_removed_again_refuted"], "note": "Hooks that leave the graph alone have no influence (C103_harmless), others keep it buildable (C103_keeps_graph), and the calls are known exactly (C103_calls, C103_calls_in_order). False: the add hooks are never called (C103_add_never_called, C103_restore_refuted), the type change of the remaining direction is not announced (C103_type_unannounced_refuted), removals are announced again (C103_removed_again_refuted), a type change is announced and then fails (C103_type_change_only_announced)."},
{"property": "C104", "status": "partial", "theorems": ["C104_test", "C104_phase_partial", "C104_pc_fails", "C104_stable_fails", "C104_triangle", "C104_sum_refuted"], "note": "False: C104_sum_refuted (a sum of two columns makes PC and PCStable fail, PCClassic ends well). Proved: the partial correlation test raises exactly for columns on a plane (C104_test); the exact tables on which the first three steps of PC end well (C104_phase_partial); PC fails if the three columns are all correlated (C104_pc_fails), PCStable always (C104_stable_fails); no algorithm with that test reports them all adjacent (C104_triangle). C120 says on exactly which tables whole runs end well."},
{"property": "C105", "status": "partial", "theorems": ["C105_stable", "C105_marginal", "C105_pc_refuted"], "note": "False for PC and PCClassic: C105_pc_refuted (a lower threshold removes two edges by the correlation test, so the test that removed the third is no longer asked and its edge stays). Proved: PCStable is monotone (C105_stable); in every algorithm the pairs removed by the correlation test stay removed at lower thresholds (C105_marginal)."},
{"property": "C106", "status": "partial", "theorems": ["C106_right_skeleton", "C106_cycle_refuted"], "note": "False for contradictory answers: C106_cycle_refuted (three colliders around a triangle, PC and PCClassic). Proved: if the skeleton phase ended with the adjacencies of some DAG and separators right for it, the arrows are arrows of that DAG, contain all that Meek's rules give, and have no cycle, whatever the other tests answer (C106_right_skeleton; PC, PCClassic, ParallelPC)."},
{"property": "C107", "status": "partial", "theorems": ["C107_again", "C107_unchanged", "C107_refuted"], "note": "False: C107_refuted. Proved in full otherwise: after any run of any of the algorithms that left two variables unconnected, executing the steps again raises TypeError or KeyError in the first step and leaves the graph as it was (C107_again); if every two variables are still connected, the second run ends well and leaves columns, edges, values and directions exactly as they were, whatever sample, orders and schedule it draws (C107_unchanged)."},
{"property": "C108", "status": "proved", "theorems": ["C108_run", "C108_pc", "C108_schedules"], "note": "C108_run for any such pipeline without pool steps, C108_pc for PC, PCClassic and PCStable including the estimation of effects, C108_schedules for a pool step after such a pipeline. The relation on exceptions is a parameter: with equality the same exception is raised."},
{"property": "C109", "status": "proved", "theorems": ["C109_run", "C109_pc", "C109_exception_refuted"], "note": "Rounding is not modelled. Which exception is raised may depend on the sign (C109_exception_refuted), so the claim only says that both runs raise or neither does."},
{"property": "C11", "status": "proved", "theorems": ["C11_paths_exact"], "note": "every reachable graph; recursion depth above the number of nodes suffices"},
{"property": "C110", "status": "partial", "theorems": ["C110_partial", "C110_stable_refuted"], "note": "False for PCStable even with perfect tests (C110_stable_refuted). For PC and PCClassic with other tests the skeleton already depends on the names (C88_pc_refuted)."},
{"property": "C111", "status": "partial", "theorems": ["C111_files", "C111_entries", "C111_slug", "C111_kept_partial", "C111_module_refuted", "C111_eject_refuted", "C111_workspace_refuted", "C111_foreign_refuted", "C111_experiment_refuted", "C111_no_workspace"], "note": "False because nothing checks for collisions: a dynamic data loader overwrites a pipeline module of the same name (C111_module_refuted), two ejected pipelines can share a file (C111_eject_refuted) or lose it to the workspace (C111_workspace_refuted), names without ASCII letters are all the same (C111_foreign_refuted), an added experiment may replace another (C111_experiment_refuted). slugify belongs to the markdown library and is modelled from its documentation."},
{"property": "C112", "status": "partial", "theorems": ["C112_partial", "C112_stable_refuted"], "note": "False for PCStable: an unrelated column turns a two-way edge into an arrow (C112_stable_refuted)."},
{"property": "C113", "status": "partial", "theorems": ["C113_classic", "C113_pc_partial", "C113_stable", "C113_ideal", "C113_pc_refuted", "C113_parallel_refuted"], "note": "Proved for PCClassic and, as least size among all sets, for PCStable; for PC up to single variables that were found independent of one of the two, and in full with tests that answer by d-separation. False for PC in general (C113_pc_refuted) and for ParallelPC even with such tests (C113_parallel_refuted)."},
{"property": "C114", "status": "partial", "theorems": ["C114_execute", "C114_failed", "C114_killed", "C114_printed_refuted", "C114_eject_refuted", "C114_resolved", "C114_ejected"], "note": "Proved for algorithms given by name, and the parts about failures and crashes for pipeline files too. With a pipeline file that ends in a logic step removed directions are printed (C114_printed_refuted); an ejected algorithm is never accepted (C114_eject_refuted). What is ejected is the algorithm with the values of its variables (C114_ejected); instantiating any algorithm replaces exactly the references or raises (C114_resolved). Messages other than the printed edges are not modelled."},
{"property": "C115", "status": "proved", "theorems": ["C115_effects_left_out", "C115_never_lost", "C115_stable", "C115_cause_refuted"], "note": "C115_cause_refuted shows that the condition about causes is needed: leaving out a column between two others connects them. C115_never_lost is about the graph after the independence tests, C115_stable about connections only."},
{"property": "C116", "status": "proved", "theorems": ["C116_effects", "C116_units", "C116_shift_refuted"], "note": "The regressions are assumed exact and the columns that point at the effect linearly independent. C116_shift_refuted shows that the zero has to stay: the regression has no intercept, so adding a constant to two columns leaves all edges but changes the effect."},
{"property": "C117", "status": "proved", "theorems": ["C117_silent", "C117_correlation", "C117_first_missing", "C117_text"], "note": "C117_silent is also a finding: the partial test swallows the KeyError of the look-up and reports nothing."},
{"property": "C118", "status": "proved", "theorems": ["C118_together", "C118_failed", "C118_order", "C118_tests", "C118_arrows_refuted"], "note": "The order does change which separating set is recorded and thereby the arrows: C118_arrows_refuted."},
{"property": "C119", "status": "partial", "theorems": ["C119_arrows_partial", "C119_finished", "C119_wrong_refuted", "C119_loop_refuted"], "note": "The full claim is false: an arrow between x and y counts as no connection. C119_arrows_partial and C119_finished say exactly when arrows are drawn; C119_wrong_refuted: a wrong arrow on a finished result; C119_loop_refuted: in a Loop an edge is lost."},
{"property": "C12", "status": "proved", "theorems": ["C12_descendants_exact"], "note": "any graph, any set iteration order"},
{"property": "C120", "status": "proved", "theorems": ["C120_matrix", "C120_classic", "C120_pc", "C120_stable", "C120_parallel", "C120_routines"], "note": "Exact real arithmetic. The routines are an argument with the contract python_run; C120_routines proves that every table has such routines."},
{"property": "C121", "status": "proved", "theorems": ["C121_pattern", "C121_as_shipped", "C121_ends", "C121_settled", "C121_needed_refuted", "C121_collider_refuted"], "note": "C121_needed_refuted: each of the three rules is needed; C121_collider_refuted: with ColliderTest among the steps the Loop never ends."},
{"property": "C122", "status": "proved", "theorems": ["C122_skeleton", "C122_stable", "C122_pattern", "C122_shipped", "C122_weaker", "C122_pc_refuted", "C122_class", "C122_agree", "C122_identifies"], "note": "C122_pc_refuted: for PC the condition on sets of one variable cannot be dropped; on the same data PCClassic is right."},
{"property": "C123", "status": "partial", "theorems": ["C123_alone", "C123_files_partial", "C123_newest_partial", "C123_errors_partial", "C123_same_second_refuted"], "note": "The full claim, without the condition on the seconds, is false: C123_same_second_refuted. Missing: nothing else for execute; a clear command at the same time is C124."},
{"property": "C124", "status": "partial", "theorems": ["C124_files_partial", "C124_cleared_partial", "C124_lost_refuted", "C124_fails_refuted", "C124_others_partial"], "note": "That the two commands do not disturb each other is false: an execute command can end well with its result removed (C124_lost_refuted), or end with FileNotFoundError before the other experiments are executed (C124_fails_refuted)."},
{"property": "C125", "status": "partial", "theorems": ["C125_in_turn_partial", "C125_errors_partial", "C125_references_partial", "C125_lost", "C125_lost_refuted", "C125_mixed_refuted", "C125_torn_refuted", "C125_refusing", "C125_missing"], "note": "That all commands which end well take effect is false: any edit can be lost to any other (C125_lost, C125_lost_refuted). Without the condition on the writing the file can be mixed from two texts (C125_mixed_refuted) and a command can fail on a file that is half written (C125_torn_refuted)."},
{"property": "C126", "status": "partial", "theorems": ["C126_order_partial", "C126_sound", "C126_exact", "C126_class", "C126_again_refuted", "C126_late_refuted", "C126_swapped_refuted"], "note": "That any order works is false: a second correlation test raises (C126_again_refuted), and so does a test with many conditioning variables after collider detection (C126_late_refuted), both with perfect tests; and PC's tests in another order leave a false edge (C126_swapped_refuted)."},
{"property": "C127", "status": "proved", "theorems": ["C127_sound", "C127_class", "C127_unsaid_refuted", "C127_bare_refuted", "C127_before_refuted", "C127_agree", "C127_pc", "C127_pc_refuted"], "note": "The conditions are needed: a true removal without its separating set makes a false collider or, with no data, raises in collider detection (C127_unsaid_refuted, C127_bare_refuted); before the correlation test it makes that test raise (C127_before_refuted); in PC, before the test with one conditioning variable, even true removals leave false edges (C127_pc_refuted)."},
{"property": "C128", "status": "proved", "theorems": ["C128_pc", "C128_class", "C128_all", "C128_early_refuted", "C128_more", "C128_fourth_refuted"], "note": "The place matters: told before the collider detection, a true direction makes false arrows (C128_early_refuted). Whoever tells more finds more (C128_more). With knowledge the fourth rule is needed, although without it it is not (C121): C128_fourth_refuted."},
{"property": "C129", "status": "proved", "theorems": ["C129_effects", "C129_model"], "note": "The conditions on means and undirected edges are needed (C93_means_refuted, C60_causes_refuted)."},
{"property": "C13", "status": "proved", "theorems": ["C13_separated_is_right"], "note": "holds for every S, also one containing u or v"},
{"property": "C130", "status": "proved", "theorems": ["C130_tiers", "C130_dag", "C130_model", "C130_wrong_refuted", "C130_effects"], "note": "Placed before the collider detection such a step is ruinous (C128_early_refuted)."},
{"property": "C131", "status": "proved", "theorems": ["C131_forced", "C131_exact", "C131_tiers", "C131_class"], "note": "For knowledge that tells of a triangle just one direction only the first claim is proved; the second is a theorem of Meek's for it."},
{"property": "C132", "status": "proved", "theorems": ["C132_endless", "C132_look", "C132_tiers"], "note": "For a step that tells one direction each time it is run; a step that looks first whether the direction is gone is not concerned."},
{"property": "C14", "status": "partial", "theorems": ["C14_exact_partial", "C14_connected_is_right_refuted"], "note": "False of the code in general (refuted); exact when S opens all or none of the colliders of each path"},
{"property": "C15", "status": "partial", "theorems": ["C15_symmetric_partial", "C15_symmetric_refuted"], "note": "False in general (refuted); holds under the same condition as C14"},
{"property": "C16", "status": "proved", "theorems": ["C16_directed_path_exists", "C16_undirected_diverges_refuted", "C16_soft_deleted_refuted"], "note": "u must have at least one edge (otherwise KeyError); necessity of the other hypotheses shown by refutations"},
{"property": "C17", "status": "partial", "theorems": ["C17_directed_paths_partial", "C17_complete_refuted"], "note": "exact description of the listed paths; completeness refuted"},
{"property": "C18", "status": "proved", "theorems": ["C18_dry_run"], "note": ""},
{"property": "C19", "status": "proved", "theorems": ["C19_action_effect"], "note": "graphs reached by regular operations and arbitrary actions"},
{"property": "C20", "status": "proved", "theorems": ["C20_taken_subsequence", "C20_all_proposed"], "note": "subsequence holds for arbitrary hooks"},
{"property": "C21", "status": "proved", "theorems": ["C21_replay"], "note": "whole graph state equal, arbitrary hooks"},
{"property": "C22", "status": "partial", "theorems": ["C22_reported_changes_partial", "C22_reported_changes_refuted"], "note": "false in general: removing an absent direction is reported"},
{"property": "C23", "status": "proved", "theorems": ["C23_all_combinations", "C23_no_error"], "note": ""},
{"property": "C24", "status": "partial", "theorems": ["C24_edge_pairs", "C24_chunked_partial", "C24_chunked_refuted"], "note": "exact without chunking; with chunking every pair is yielded a second time"},
{"property": "C25", "status": "proved", "theorems": ["C25_neighbours", "C25_no_error", "C25_rejects_small_min", "C25_unchunked_pairs_refuted"], "note": "every set order and shuffle; refuted side claim: unchunked size-2 combinations come wrapped"},
{"property": "C26", "status": "proved", "theorems": ["C26_pc", "C26_classic", "perfect_exists"], "note": "PC and PCClassic skeleton phases on every start graph; perfect tests exist for every DAG."},
{"property": "C27", "status": "proved", "theorems": ["C27_colliders"], "note": "for PC, PCClassic and ParallelPC under perfect tests"},
{"property": "C28", "status": "proved", "theorems": ["C28_arrows", "C28_pattern"], "note": "the result is exactly the closure of the v-structures of D under Meek's rules"},
{"property": "C29", "status": "proved", "theorems": ["C29_loop_ends"], "note": "bound: live directions plus two"},
{"property": "C30", "status": "proved", "theorems": ["C30_fixpoint", "C30_meek_closed"], "note": "fixpoint on every reached graph; closed under Meek's rules under perfect tests"},
{"property": "C31", "status": "proved", "theorems": ["C31_two_way", "C31_one_way"], "note": "PC, PCClassic and ParallelPC (runner as in perfect_run) under d-separation answers"},
{"property": "C32", "status": "proved", "theorems": ["C32_same_result"], "note": "independent of data, variable order, set iteration order and algorithm"},
{"property": "C33", "status": "partial", "theorems": ["C33_stable_skeleton", "C33_arrows_refuted"], "note": "skeleton proved; the arrows are wrong for PCStable (witness)"},
{"property": "C34", "status": "partial", "theorems": ["C34_any_schedule_partial", "C34_start_snapshots", "C34_refuted"], "note": "False as stated: with fresh snapshots a pair can stay connected (C34_refuted). Soundness and separators for every schedule, exactness when partial correlation tasks see the start graph of the step."},
{"property": "C35", "status": "proved", "theorems": ["C35_no_new_edges", "C35_only_restores", "C35_algorithms"], "note": "Any pipeline of shipped steps, any schedule of parallel steps, also when the run raises."},
{"property": "C36", "status": "proved", "theorems": ["C36_adjacencies", "C36_step"], "note": "Any graph, histories, strategies and set orders; also when the step raises."},
{"property": "C37", "status": "partial", "theorems": ["C37_refuted", "C37_extendable_partial"], "note": "False in general (a PC run loses an adjacency); holds whenever the graph has a consistent extension."},
{"property": "C38", "status": "proved", "theorems": ["C38_only_numeric_errors", "C38_no_crash"], "note": "PC, PCClassic, PCStable and ParallelPC; the loop budget is never used up"},
{"property": "C39", "status": "proved", "theorems": ["C39_run_log"], "note": "Also describes the log of a run that raised."},
{"property": "C40", "status": "partial", "theorems": ["C40_purged_partial", "C40_refuted"], "note": "False for pipelines that end with a logic step."},
{"property": "C41", "status": "proved", "theorems": ["C41_same_table", "C41_ragged_rejected", "C41_extra_columns_refuted", "C41_loader_rows", "C41_loader_columns", "C41_json_file", "C41_jsonl_file"], "note": "Extra columns of later rows are dropped silently."},
{"property": "C42", "status": "proved", "theorems": ["C42_complete", "C42_start"], "note": ""},
{"property": "C43", "status": "proved", "theorems": ["C43_iid_structural"], "note": "Abstract number type with arbitrary addition and multiplication; the noise is an arbitrary sequence in call order."},
{"property": "C44", "status": "proved", "theorems": ["C44_topologic_sort"], "note": "Non-termination on cycles: OutOfFuel for every fuel."},
{"property": "C45", "status": "proved", "theorems": ["C45_correlation", "C45_constant", "C45_rescale", "C45_line"], "note": "Exact real arithmetic; None stands for nan."},
{"property": "C46", "status": "proved", "theorems": ["C46_agree", "C46_partial_correlation"], "note": "Exact real arithmetic; the inverse matrix is any left inverse of the covariance matrix."},
{"property": "C47", "status": "proved", "theorems": ["C47_accepts_iff", "C47_constructed_valid", "C47_validate_values", "C47_resolve", "C47_resolved_valid", "C47_load"], "note": "Validation at construction and at use, and resolution of user values, for every variable and value; pydantic's own coercion is an argument."},
{"property": "C48", "status": "partial", "theorems": ["C48_no_references_partial", "C48_unknown_raises", "C48_unchanged", "C48_values", "C48_first_wins", "C48_dump_load", "C48_nested_refuted", "C48_no_variables_refuted", "C48_defaults"], "note": "Proved for references in attributes of steps, nested objects and sub-steps. The full statement is false: references inside lists or dictionaries are kept, and nothing is resolved when no variable is given; both are shown by the refuted theorems."},
{"property": "C49", "status": "proved", "theorems": ["C49_versions", "C49_load_version", "C49_latest", "C49_clear", "C49_stray_refuted"], "note": "For every directory, save history and listing order, as long as no file merely looks like a result of the experiment; C49_stray_refuted shows that such files break listing."},
{"property": "C50", "status": "proved", "theorems": ["C50_references", "C50_from_empty", "C50_values_partial", "C50_values_refuted"], "note": "References stay valid through every session. The further claim that stored values fit the pipeline holds unless a pipeline is replaced under the same name, which the commands allow."},
{"property": "C51", "status": "partial", "theorems": ["C51_prefix_refuted", "C51_confined_partial", "C51_inside_accepted", "C51_server_confined"], "note": "The statement is false of the loader: a neighbouring directory whose name starts with the name of the working directory is accepted. Proved: what the check does guarantee, that nothing inside is refused, and that the web server's additional check confines it (no symbolic links)."},
{"property": "C52", "status": "partial", "theorems": ["C52_action_raises_iff", "C52_type_change_refuted", "C52_update_one_way_refuted"], "note": "false in general; the first theorem characterises exactly when an action raises"},
{"property": "C53", "status": "partial", "theorems": ["C53_failed_step_partial", "C53_failed_restore_refuted"], "note": "false for RESTORE_EDGE"},
{"property": "C54", "status": "proved", "theorems": ["C54_iid_generate", "C54_shaped_rows"], "note": ""},
{"property": "C55", "status": "proved", "theorems": ["C55_series_equations", "C55_series_graph", "C55_time_ids_distinct", "C55_contemporaneous_refuted"], "note": "Strictly past edges only; contemporaneous edges refuted (IndexError depends on set order). The computation of initial values is not modelled."},
{"property": "C56", "status": "partial", "theorems": ["C56_skip_sound_partial", "C56_skip_sound_json_partial", "C56_fresh_partial", "C56_no_values_refuted"], "note": "Proved for experiments that give a value for every variable the pipeline refers to; refuted for experiments without values. The _json theorem uses the text the code hashes for variables."},
{"property": "C57", "status": "partial", "theorems": ["C57_independent_partial", "C57_module_refuted"], "note": "Proved for pipelines given by name or file, and for module pipelines without references; refuted for module pipelines with references."},
{"property": "C58", "status": "proved", "theorems": ["C58_siblings", "C58_edges", "C58_type", "C58_history"], "note": "Added after mutation testing: a wrong get_siblings had survived."},
{"property": "C59", "status": "proved", "theorems": ["C59_effects", "C59_run"], "note": "regression is an oracle; the in-place write into the edge's dict before the action is applied is not modelled"},
{"property": "C60", "status": "partial", "theorems": ["C60_causes_partial", "C60_causes_refuted"], "note": "true when the effect variable has no undirected edge; otherwise undirected neighbours, which may be effects of v, are used as covariates (refuted by a 5-variable run)"},
{"property": "C61", "status": "partial", "theorems": ["C61_regression_partial", "C61_regression_refuted"], "note": "Holds for variables of mean zero; refuted in general because no constant is fitted."},
{"property": "C62", "status": "proved", "theorems": ["C62_answers", "C62_sign", "C62_monotone", "C62_zero", "C62_matrix_answers"], "note": "Exact real arithmetic; the normal distribution function is an argument, assumed monotone (and 1/2 at 0) where needed."},
{"property": "C63", "status": "partial", "theorems": ["C63_coefficient", "C63_shift_partial", "C63_shift_refuted"], "note": "Coefficient recovered; independence of the zero point holds for columns of mean zero and is refuted in general."},
{"property": "C64", "status": "proved", "theorems": ["C64_coefficients"], "note": "the step reads the complete start graph; later steps are in C65"},
{"property": "C65", "status": "proved", "theorems": ["C65_separators"], "note": "arbitrary answers of the tests, all four algorithms"},
{"property": "C66", "status": "proved", "theorems": ["C66_same_result", "C66_two_way", "C66_one_way", "C66_indistinguishable"], "note": "For runs with tests that answer by d-separation (perfect_run); independence statements range over all pairs and sets of the variables."},
{"property": "C67", "status": "proved", "theorems": ["C67_types", "C67_kept", "C67_restore_refuted"], "note": "Custom steps that restore a direction break it (refuted variant)."},
{"property": "C68", "status": "partial", "theorems": ["C68_separated_is_right", "C68_exact_partial", "C68_pc", "C68_connected_refuted"], "note": "Separated is right always. Connected is right when all paths are of definite status and colliders are opened uniformly; refuted otherwise."},
{"property": "C69", "status": "proved", "theorems": ["C69_text", "C69_hash", "C69_variables"], "note": "Collision freedom of SHA256 and the shape of float texts are hypotheses."},
{"property": "C70", "status": "partial", "theorems": ["C70_options_partial", "C70_zero_refuted", "C70_parallel_refuted", "C70_strategy_refuted", "C70_defaults"], "note": "Full statement is false of the code: 0, 0.0, False and unknown options are ignored; proved exactly which values are used."},
{"property": "C71", "status": "partial", "theorems": ["C71_reload", "C71_roundtrip_partial", "C71_algorithm", "C71_written", "C71_unexpected", "C71_pc_refuted", "C71_collider_refuted", "C71_chunk_size_refuted", "C71_types_refuted", "C71_pc_shape", "C71_nameless", "C71_types_written", "C71_types_order"], "note": "Full statement is false of the code; proved an exact characterisation of what loading a dump gives, what is written, and that unknown keys are refused."},
{"property": "C72", "status": "partial", "theorems": ["C72_correlations", "C72_other_direction_refuted"], "note": "C72_correlations is the full statement of what the step does; keeping the data of both directions is false of the code (refuted)."},
{"property": "C73", "status": "proved", "theorems": ["C73_read_back", "C73_fails_exactly", "C73_text_determines", "C73_surrogates_refuted"], "note": "Without the condition on surrogates the claim is false (C73_surrogates_refuted). Writing and reading of one float is an argument."},
{"property": "C74", "status": "proved", "theorems": ["C74_torn", "C74_any_text", "C74_trailing", "C74_number_refuted"], "note": "Results are dictionaries; for a bare number the claim is false (C74_number_refuted)."},
{"property": "C75", "status": "proved", "theorems": ["C75_loaded", "C75_other_type", "C75_no_metadata", "C75_torn", "C75_saved"], "note": "All results. Which strings pydantic accepts as a date is an argument of the model."},
{"property": "C76", "status": "partial", "theorems": ["C76_killed", "C76_resumed_partial", "C76_json", "C76_latest_refuted", "C76_same_second_refuted", "C76_unsaved_refuted"], "note": "Resuming is proved for pipelines by name or file (or closed module pipelines) and experiments that give all values; a kill is of the process, not a power loss."},
{"property": "C77", "status": "partial", "theorems": ["C77_complete_partial", "C77_current_partial", "C77_idle_partial", "C77_blocked"], "note": "For pipelines by name or file (or closed module pipelines) and experiments that give all values; C77_current_partial also needs hashes without collisions."},
{"property": "C78", "status": "partial", "theorems": ["C78_clear", "C78_workspace_partial", "C78_workspace_refuted"], "note": "That the old or the new workspace survives a kill is false."},
{"property": "C79", "status": "proved", "theorems": ["C79_names", "C79_table", "C79_direction_refuted", "C79_ids_refuted", "C79_hidden_refuted"], "note": "Refuted theorems record where the printed table misleads."},
{"property": "C80", "status": "proved", "theorems": ["C80_stored", "C80_kept", "C80_bool_refuted", "C80_refused"], "note": "C80_stored is for strings, integers and floats; truth values are refuted."},
{"property": "C81", "status": "proved", "theorems": ["C81_latest", "C81_version", "C81_running_latest", "C81_running_version", "C81_json", "C81_label_refuted", "C81_clear_refuted"], "note": "Building the ExtendedResult from the JSON value is an argument of the model. The refuted theorems show what does not hold while other processes write."},
{"property": "C82", "status": "proved", "theorems": ["C82_experiments", "C82_port", "C82_empty_refuted", "C82_start", "C82_answers"], "note": ""},
{"property": "C83", "status": "proved", "theorems": ["C83_step", "C83_recorded", "C83_recorded_refuted", "C83_dry_refuted"], "note": "Steps with separate pairs (no pair twice or in both orders), as the generators of these steps give them; sequential processing."},
{"property": "C84", "status": "partial", "theorems": ["C84_run", "C84_pc", "C84_fci_refuted", "C84_types"], "note": "False with the shipped ColliderRuleFCI, which stores None as edge metadata: the file is written and cannot be loaded. The strategy KEEP_LAST is left out because types and directions disagree there (C67_restore_refuted). Floats are assumed to be written by the text that reads back as the same float."},
{"property": "C85", "status": "proved", "theorems": ["C85_run", "C85_schedules", "C85_pools"], "note": "Without hooks. The counterpart of a step is the same step with the other routines (`same_step`); custom steps are not covered."},
{"property": "C86", "status": "proved", "theorems": ["C86_run", "C86_pc", "C86_parallel"], "note": "Exact arithmetic: float64 rounding is not modelled, so near the threshold a real run may differ. The regression-based test is excluded: it depends on the units' origin (C61_regression_refuted)."},
{"property": "C87", "status": "proved", "theorems": ["C87_removed", "C87_kept"], "note": "For any numerics, any set order, any pool schedule. A single variable connected to only one of x and y is not tested by PC, as the statement says."},
{"property": "C88", "status": "proved", "theorems": ["C88_stable_kept", "C88_stable", "C88_names", "C88_pc_refuted"], "note": "Symmetric answers are a hypothesis (regular_tests): exact arithmetic has it, floating point summation in torch only up to rounding. The refutation for PC and PCClassic uses symmetric tests."},
{"property": "C89", "status": "proved", "theorems": ["C89_stationary_variance", "C89_same_time", "C89_no_edges", "C89_repeated_edges_refuted"], "note": "The two restrictions are needed: with two edges from one source with one lag the code uses the last coefficient but generates with the sum (C89_repeated_edges_refuted), and an edge of lag 0 is taken for one of the largest lag (C89_same_time)."},
{"property": "C90", "status": "partial", "theorems": ["C90_stays_stationary", "C90_generated_partial", "C90_dependent_variables_refuted", "C90_longer_lags_refuted"], "note": "Proved for lags of one step when different variables are uncorrelated at the same time in the stationary process, and in general for initial values with the stationary covariances. False for the code otherwise: the initial values are drawn independently of each other (C90_dependent_variables_refuted) and only one initial value is drawn per variable (C90_longer_lags_refuted)."},
{"property": "C91", "status": "proved", "theorems": ["C91_residuals", "C91_correlation", "C91_one_control", "C91_matrix", "C91_invertible", "C91_generated"], "note": "Exact arithmetic over the reals; axioms of the standard library's reals."},
{"property": "C92", "status": "proved", "theorems": ["C92_tests", "C92_recovers", "C92_cancelling_refuted"], "note": "The assumption on the strength of dependences is needed: if two ways between variables cancel out, PC drops an edge and turns another one around (C92_cancelling_refuted)."},
{"property": "C93", "status": "partial", "theorems": ["C93_weights", "C93_effects_partial", "C93_means_refuted"], "note": "Proved for targets without undirected edges whose causes have mean 0. Without mean 0 it is false, because the regression has no intercept (C93_means_refuted); with undirected edges the covariates are not the causes (C60_causes_refuted)."},
{"property": "C94", "status": "partial", "theorems": ["C94_recorded", "C94_protected", "C94_nothing_passes", "C94_told_partial", "C94_told_parallel", "C94_told_refuted", "C94_once_refuted"], "note": "The part on pre-update hooks is proved in full. With ApplyActionsTogether (PCStable) post-update hooks are told of actions before they are carried out (C94_told_refuted) and every action passes the pre-update hooks twice (C94_once_refuted). Hooks that change the graph themselves are not modelled."},
{"property": "C95", "status": "partial", "theorems": ["C95_shipped_partial", "C95_kept", "C95_order", "C95_manager_refuted", "C95_leak_refuted", "C95_override_refuted", "C95_subclass_refuted"], "note": "Proved for the shipped edge types and extensions and, where one class defines the query, for any classes. False: model.graph has none of the queries (C95_manager_refuted); queries appear once another model is created (C95_leak_refuted); a mixin that overrides a query or extends another mixin works for some iteration orders only (C95_override_refuted, C95_subclass_refuted)."},
{"property": "C96", "status": "partial", "theorems": ["C96_outcome_partial", "C96_never", "C96_docstring", "C96_edge_refuted", "C96_long_refuted"], "note": "The claim is false: the query never answers True (C96_never). C96_outcome_partial says exactly when it answers False and when it raises AttributeError; C96_docstring shows that by the docstring it should be True exactly for an edge from u to v."},
{"property": "C97", "status": "partial", "theorems": ["C97_marks_partial", "C97_iff", "C97_correlation_refuted", "C97_shielded_refuted"], "note": "Marks are exact (C97_iff) and all other directions keep their type and metadata (C97_marks_partial). False: the mark replaces the stored correlation (C97_correlation_refuted), and a pair joined in one direction only counts as not adjacent, so shielded triples are marked (C97_shielded_refuted)."},
{"property": "C98", "status": "partial", "theorems": ["C98_phase_partial", "C98_fails", "C98_constant", "C98_arrows_refuted"], "note": "False of the code: a varying column that repeats another one in other units, or fewer than three rows, make every PC algorithm raise ZeroDivisionError or ValueError (C98_phase_partial gives the exact condition, C98_fails the consequence); a constant column stays adjacent to every variable (C98_constant) and PC even draws arrows into it (C98_arrows_refuted). Arithmetic is exact."},
{"property": "C99", "status": "partial", "theorems": ["C99_first_partial", "C99_last", "C99_phantom_refuted", "C99_silent_refuted"], "note": "Every candidate is oriented or reported, a reported one contradicts an earlier candidate (C99_first_partial), and with KEEP_LAST a candidate that no later one contradicts is oriented (C99_last). False: the record of a conflict counts as an orientation, so a collider that agrees with all kept arrows can be given up (C99_phantom_refuted); KEEP_LAST gives up colliders without a report (C99_silent_refuted)."}
]}
