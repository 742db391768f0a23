m("C01","proved",["C01_dependencies_first"],"arbitrary, changing graphs; model of Taskmaster in TMModel.v")
m("C02","proved",["C02_at_most_once","C02b_at_most_once_with_side_effects"],"general graphs for ordinary nodes; for side-effect nodes the graph must be fixed")
m("C03","proved",["C03_nothing_on_failed"],"fixed graph, no exception swallowed by --ignore-errors")
m("C04","proved",["C04_stop_is_final","C04b_failure_stops"],"")
m("C05","proved",["C05_complete","C05b_complete_keep_going","C05_side_effect_target_refuted"],"fixed graph; requested target must not itself be a declared side effect (refuted otherwise: finding)")
m("C07","proved",["C07_acyclic_silent","C07b_cycle_reported","C07c_reported_cycle_genuine","C07d_cycle_reported_keep_going","C07e_acyclic_no_cycle_printed","C07_keep_going_refuted"],"side effects and --keep-going included; exception in the statement shown by C07_keep_going_refuted (finding); fixed graph")
m("C06","proved",["C06_requests_terminate","C06b_tasks_bounded"],"finite graph, cycles allowed; bound on handed-out tasks proved without side effects")
m("C08","proved",["C08_side_effects_exclusive","C08b_side_effects_exclusive_keep_going","C08_keep_going_refuted"],"exception in the statement shown by C08_keep_going_refuted (finding); fixed graph")
m("C09","proved",["C09_at_most_n_running","C09b_taskmaster_serialised","C09c_legacy_limit"],"NewParallel, and LegacyParallel (C09c)")
m("C10","proved",["C10_no_task_lost","C10b_completion_not_early","C10c_parallel_complete","C10d_legacy_no_task_lost","C10e_legacy_not_early","C10f_legacy_complete","C10g_legacy_outcomes"],"NewParallel and LegacyParallel, with signals; exceptions escaping from the taskmaster callbacks are not modelled")
m("C11","proved",["C11_no_deadlock","C11b_single_worker_never_waits","C11c_legacy_no_deadlock","C11d_build_terminates","C11e_legacy_terminates"],"NewParallel and LegacyParallel, with signals; C11d/C11e exclude tasks whose preparation fails under --ignore-errors; finite graph; no spurious wake-ups, no escaping exceptions")
m("C12","proved",["C12_null_build","C12b_null_build_md5_timestamp","C15_ignored_depends_refuted"],"proved unless a node is both Depends() and Ignore() of the same target, in which case the target is never up to date (finding: Node.get_binfo records signatures of ignored explicit dependencies)")
m("C13","proved",["C13_up_to_date_iff","C13b_missing_is_out_of_date","C13c_repository","C13d_md5_timestamp_iff"],"content decider, and MD5-timestamp decider")
m("C14","proved",["C14_same_dependency","C14b_same_dependency_nodes","C14_ignored_depends_refuted"],"proved unless a node is both Depends() and Ignore() (refuted: finding)")
m("C15","proved",["C15_ignored_state_irrelevant","C15b_ignored_like_absent","C15_ignored_depends_refuted"],"disk state of ignored nodes is irrelevant in all cases; the recorded information differs when an explicit dependency is ignored (refuted: finding)")
m("C41","proved",["C41_incremental_equals_clean","C41b_full_runs","C41c_no_drift","C41_killed_refuted","C41_max_drift_refuted"],"proved for histories without SIGKILL and with trustworthy timestamps; both exceptions are refuted by concrete histories (findings)")
m("C16","proved",["C16_crash_safe","C16b_history"],"process death at any file-system step (page cache survives; power failure not modelled); pickle abstracted by dec(enc d)=d and non-empty dumps")
m("C17","proved",["C17_close_reopen","C17b_read_only","C17c_directories","C17_delete_refuted"],"proved when every deletion is followed by an assignment or explicit sync; refuted otherwise (finding: _Dblite.__delitem__ does not set _needs_sync)")
m("C18","proved",["C18_dirfile_crash","C18_dirfile_crash_refuted"],"old, new or no entries, never a mixture; 'old or new' is refuted (finding: the old file is unlinked before the rename)")
m("C19","proved",["C19_cache_entries_complete"],"any interleaving of pushing/fetching/crashing/cleaning processes at file-system step granularity; process death, not power failure")
m("C20","proved",["C20_all_or_nothing"],"deletion of already fetched targets is assumed to succeed (a failing unlink is only warned about in the code); a retrieval dying half-way may leave a partial target, which is then rebuilt")
m("C21","proved",["C21_key_determines_inputs","C21_delimiter_refuted"],"proved for target paths without comma-space; refuted otherwise (finding: hash_collect joins with comma-space without escaping)")
m("C33","proved",["C33_chunk_size_irrelevant","C33_zero_chunk"],"hash algorithm abstract: update is incremental; chunk size 0 gives a constant signature (Main.py rejects it)")
m("C42","proved",["C42_fetched_equals_built"],"no hash collisions, honest pushers, target paths without comma-space")
m("C22","proved",["C22_no_dollar","C22b_text_before","C22c_text_after","C22d_words","C22e_lines","C22f_joined"],"scons_subst and scons_subst_list")
m("C23","proved",["C23_one_dollar","C23b_cmd_count","C23_stray_refuted","C23_cmd_paren_refuted","C23_list_refuted","C23_sig_refuted"],"proved for well-formed strings; refuted next to stray $, before parentheses in command mode, for list arguments (findings)")
m("C24","proved",["C24_terminates","C24_dotted_expression_refuted"],"proved when callables do not return callables endlessly and ${..} expressions with a dot are attribute accesses; refuted for general dotted expressions (finding)")
m("C25","proved",["C25_signature_ignores","C25b_fixed_text","C25c_command_keeps","C25d_command_line_keeps","C25_list_nesting_refuted"],"balanced $( $); nested ones are wrong in scons_subst_list (finding)")
m("C26","proved",["C26_parent_untouched","C26b_own_variables","C26c_override","C26_append_refuted"],"proved unless Append/Prepend changes in place an object inherited from the parent (refuted: documented in the docstring of OverrideEnvironment)")
m("C27","proved",["C27_lookup_like_dictionary","C27b_dictionary_view","C27c_substitution_view","C27_deleted_twice_refuted","C27_replace_refuted","C27_subst_refuted"],"lookup and membership proved; dictionary view proved when deleted variables are re-assigned only by item assignment and not deleted twice; substitution proved without deletions (refuted otherwise: findings)")
m("C28","proved",["C28_adds_new_only","C28b_moves","C28c_single","C28d_new_variable"],"CPPDEFINES and nested containers not modelled")
m("C43","proved",["C43_append_prepend","C43b_new_variable"],"strings and flat lists; CPPDEFINES, dictionaries, CLVar not modelled")
m("C29","proved",["C29_prepend","C29b_append","C29c_prepend_keep","C29d_append_keep","C29e_add_if_not_exists","C29_argument_refuted","C29_old_duplicates_refuted","C29_first_one_refuted"],"exact result proved in all four modes; refuted parts: PrependPath(delete_existing=False) reverses the caller's list and keeps the last of equal new elements, AppendPath(delete_existing=False) keeps duplicates among the old ones (findings). One-character separator; no tuples or Dir nodes")
m("C30","proved",["C30_first_occurrences","C30b_unique","C30c_unique_list","C30_init_refuted","C30_pop_refuted","C30_partial_order_refuted"],"UniqueList proved for operations at the ends; refuted for a constructor argument with duplicates and for positional operations after unread appends (findings); unique needs hashable, totally ordered or merely comparable elements")
m("C31","proved",["C31_node_identity","C31b_lookup","C31c_lookup_succeeds","C31d_existing_found","C31_refuted_slashes","C31_refuted_newline"],"POSIX; string arguments; the exceptions in the statement are proved to be real (findings)")
m("C32","proved",["C32_rel_path","C32b_rel_path_lookup","C32c_get_path","C32_refuted_hash"],"any two nodes, not only directories; the exception in the statement is proved to be real (finding)")
m("C34","proved",["C34_exit_status","C34b_zero_iff_no_failure","C34c_other_cases","C34d_question","C34e_from_actions","C34_refuted_exit_zero"],"the exception in the statement is proved to be real (finding)")
m("C35","proved",["C35_mutual_exclusion","C35b_lock_file_present","C35c_acquirable","C35d_release","C35e_errors","C35_refuted_descriptor_zero","C35_refuted_killed"],"the exceptions in the statement are proved to be real (finding: descriptor 0)")
m("C37","proved",["C37_cache_transparent","C37b_same_path","C37c_flatten","C37_refuted_split"],"the exception in the statement is proved to be real (finding)")
m("C40","proved",["C40_exit_functions","C40b_terminates","C40_refuted_exception"],"the exception in the statement is proved to be real")
m("C44","proved",["C44_stop_at_first_failure","C44_refuted_same_file","C44_refuted_errno_zero"],"the exceptions in the statement are proved to be real (findings)")
m("C36","proved",["C36_closure","C36a_terminates","C36b_general","C36c_each_once","C36d_history","C36e_scan_targets","C36f_classic_scan","C36_mixed_refuted","C36_twice_refuted","C36_no_sources_refuted","C36_includes_cache_refuted"],"the exceptions in the statement are proved to be real (findings)")
m("C38","proved",["C38_active_groups","C38b_terminates","C38c_include_macro","C38d_dumb","C38e_directive","C38_skipped_condition_refuted","C38_self_macro_refuted","C38_read_once_refuted","C38_include_next_refuted","C38_two_comments_refuted"],"on directive tuples; the exceptions in the statement are proved to be real (findings)")
m("C39","proved",["C39_first_repository","C39b_declaration_order","C39c_find_file","C39d_find_file_memo","C39e_repository_call","C39f_variant_dir","C39g_variant_find_file","C39h_local_file","C39_directory_refuted","C39_rentry_refuted","C39_outside_refuted","C39_variant_loop_refuted","C39_find_file_refuted"],"duplicating VariantDirs not modelled; the exceptions in the statement are proved to be real (findings)")
m("C45","proved",["C45_conditions","C45b_conditional","C45_undefined_refuted","C45_conditional_refuted","C45_quotient_refuted","C45_logical_value_refuted","C45_zero_division_refuted"],"on syntax trees, i.e. fully parenthesised text; the exceptions in the statement are proved to be real (findings)")
m("C46","proved",["C46_mixed_deciders","C46b_timestamp_newer","C46c_timestamp_match","C46d_null_build","C46_replaced_dependency_refuted"],"the exception in the statement is proved to be real (finding); timestamp-content decider is C01/C02")
m("C47","proved",["C47_actions_in_order","C47b_first_failure_stops","C47c_executor","C47d_prefix","C47e_ignored_never_fails","C47_second_line_refuted","C47_generator_list_refuted","C47_lazy_loop_refuted"],"substitution abstract; the exceptions in the statement are proved to be real (findings)")
m("C48","proved",["C48_plus","C48b_plus_associative","C48c_change_noticed","C48d_nothing_else_matters","C48e_executor","C48g_plus_neutral","C48_joined_refuted","C48_callable_state_refuted"],"the exceptions in the statement are proved to be real (findings)")
m("C49","proved",["C49_changed_lists","C49b_add_sources","C49c_sources_of_target","C49d_all_children","C49e_prepare","C49_add_sources_refuted"],"the exception in the statement is proved to be real")
m("C50","proved",["C50_removes_only_asked","C50b_removes_all_asked","C50c_dry_run","C50d_whole_run","C50e_clean_is_additive","C50f_clean_is_exact","C50_shared_list_refuted","C50_noclean_refuted","C50_second_target_refuted","C50_sibling_refuted"],"tasks' removals taken one after the other (any order); the exceptions in the statement are proved to be real (findings, two of them contradict the documentation)")
m("C51","proved",["C51_words_reach_program","C51b_file_names","C51c_response_file","C51_backquote_refuted","C51_changed_command_refuted","C51_empty_argument_refuted","C51_length_refuted"],"shell grammar restricted to words and double quotes (anything else counts as acted upon by the shell); Windows quoting not modelled; the exceptions in the statement are proved to be real (finding: backquote)")
m("C52","proved",["C52_independent","C52b_clone_values","C52c_clone_returns","C52d_snapshot","C52_refuted_cycle","C52_refuted_opaque"],"BUILDERS, tools and attributes other than variables not modelled; the exceptions in the statement are proved to be real (finding: contradicts the docstring)")
m("C53","proved",["C53_interrupt_stops","C53b_interrupt_bounded","C53c_results_reported","C53d_interrupt_ends","C53e_final_account","C53f_finished_means_built","C53g_legacy_interrupt","C53h_outcomes_recorded","C53_ignore_errors_refuted"],"NewParallel, and LegacyParallel (C53g); the handler runs between two actions of the model (in particular not between the test of interrupted and the call of execute(), nor in the middle of a taskmaster request); the exception in the statement is proved to be real (finding)")
m("C54","proved",["C54_update_precedence","C54b_others_untouched","C54c_unknown","C54d_defaulted","C54e_validated","C54f_save_load","C54g_bool","C54h_enum","C54i_list","C54j_add","C54k_accepts","C54_bool_none_refuted","C54_list_default_refuted","C54_save_raises_refuted"],"substitution abstract (values without dollar sign); reading the file is taken to be the assignments in it; the exceptions in the statement are proved to be real (findings)")
m("C55","proved",["C55_conflicts_refused","C55b_recipe","C55c_one_command","C55d_side_effects","C55e_repeated_call","C55f_multi_targets","C55g_multi_sources","C55h_added_actions","C55_same_env_refuted","C55_overlap_refuted","C55_early_action_refuted","C55_early_action_multi_refuted","C55_repeated_source_refuted"],"on target and source lists as they are after suffixes and emitters; the exceptions in the statement are proved to be real (findings)")
m("C56","proved",["C56_extension","C56_extension_unique","C56b_target_name","C56c_adjusted_name","C56d_adjust_idempotent","C56e_action_for_suffix","C56f_refused_suffixes","C56g_action_found","C56h_add_action","C56i_sources_in_order","C56j_no_source_lost","C56k_nothing_else","C56l_each_source","C56m_names","C56n_suffixes_current","C56o_suffixes","C56_suffix_alone_refuted","C56_trailing_slash_refuted","C56_two_sources_one_target_refuted","C56_source_order_refuted","C56_list_refuted","C56_source_lost_refuted","C56_variable_suffix_refuted","C56_first_suffix_refuted","C56_new_suffix_refuted"],"POSIX names; no source is lost if emitters only add files and each source builder makes files its parent takes; the exceptions in the statement are proved to be real (findings)")
m("C57","proved",["C57a_variantdir_result","C57b_srcnode","C57b_dir_srcnode","C57c_alter_targets","C57c_alter_dir_targets","C57d_duplicate_flag","C57e_sources_untouched","C57f_copies_faithful","C57g_no_exec","C57h_ends_shallow","C57h_ends_disjoint","C57i_target_written","C57_no_exec_removes_refuted","C57_precious_writes_source_refuted","C57_unremovable_copy_refuted","C57_relative_symlink_refuted","C57_mutual_variants_refuted","C57_duplicate_order_refuted"],"directories, permissions, times and repositories not modelled; faithfulness of copies for sources that are regular files or absent; the exceptions in the statement are proved to be real (findings)")
m("C58","proved",["C58a_flags_go_where_documented","C58b_nesting_is_irrelevant","C58c_words_may_be_split","C58d_quoted_words_arrive","C58e_one_string_or_two","C58f_accepted","C58g_merge_removes_duplicates","C58h_merge_same_elements","C58i_merge_flags","C58j_merge_twice","C58k_macros_survive","C58l_define_flags","C58_every_string_accepted_refuted","C58_list_of_words_refuted","C58_std_refuted","C58_merge_keeps_the_dictionary_refuted","C58_merge_deque_refuted","C58_merge_tuple_refuted","C58_merge_tuple_elements_refuted"],"the output of a !command is a parameter; substitution is abstract; the table in FlagSpec is the documented one plus the undocumented entries, marked as such; C58i and C58j for variables that hold lists or are absent; the exceptions in the statement are proved to be real (findings)")
m("C59","proved",["C59a_first_value","C59b_append","C59c_prepend","C59c_prepend_one","C59d_nothing_lost","C59e_append_unique","C59f_unique_no_duplicates","C59g_append_unique_moves","C59h_prepend_unique_moves","C59i_merge_into_deque","C59_prepend_order_refuted","C59_unique_numbers_refuted","C59_unique_equal_signs_refuted","C59_unique_one_tuple_refuted","C59_unique_within_list_refuted","C59_doc_example_refuted","C59_append_scalar_refuted"],"values are None, strings, numbers, lists, tuples, dictionaries with string keys, deques; the exceptions in the statement are proved to be real (findings)")
m("C60","proved",["C60a_scripts_behave","C60b_one_result","C60c_caller_untouched","C60d_process_directory","C60_return_stdin_refuted","C60_return_stops_refuted","C60_return_local_refuted","C60_process_directory_refuted"],"scripts are programs of a small statement language; no variant_dir, repositories or user functions shared between scripts; values opaque; the exceptions in the statement are proved to be real (findings)")
m("C61","proved",["C61a_precedence","C61b_unknown","C61c_targets","C61d_refused","C61e_set_errors","C61e_case","C61_script_one","C61_value_one","C61_separate_refuted","C61_dash_word_refuted","C61_two_forms_refuted","C61_append_default_refuted","C61_chunksize_refuted","C61_implicit_deps_refuted"],"types of options are functions from words to values; messages not modelled; options of the project use the actions store, store_const (and true, false), append, append_const, count, have names and variables of their own; the exceptions in the statement are proved to be real (findings)")
m("C62","proved",["C62a_lists","C62_means_one","C62b_climb","C62c_asked","C62d_defaults","C62e_up","C62f_Up","C62g_arguments","C62h_command_line","C62_dashdash_refuted","C62_U_directory_refuted","C62_U_no_default_refuted","C62_hand_names_refuted"],"what the arguments of Default name is looked up already; interactive mode not modelled; the exceptions in the statement are proved to be real (findings)")
m("C63","proved",["C63a_nodes","C63b_strings","C63c_order","C63d_nodes_after","C63e_fnmatch","C63f_opens","C63g_plain","C63_source_refuted","C63_exclude_brackets_refuted","C63_top_refuted","C63_missing_directory_refuted","C63_hash_refuted","C63_trailing_slash_refuted","C63_ties_refuted","C63_chain_refuted"],"the directories searched for a directory are given; names on disk do not begin with #; the same name is not a file in one directory searched and a directory in another; the exceptions in the statement are proved to be real (findings)")
m("C64","proved",["C64a_result","C64b_once","C64c_force","C64d_cache","C64e_dry","C64f_try_run","C64_fresh_one","C64_stale_header_refuted","C64_removed_directory_refuted","C64_cache_removes_refuted"],"one target per command; what a command does depends on the command and the contents of its children; hash injective; signatures recorded for files of the project are current and the files of the configure directory are not touched by others (both exceptions proved to be real, findings)")
m("C65","proved",["C65a_session","C65b_current","C65_run_current","C65c_clears","C65_requires_refuted","C65_siblings_refuted","C65_dropped_refuted"],"one process; decision by content; no variant directories, repositories, caches and side effects; a file that is neither a source nor built is an error; what a command does depends on the command and the contents of the children; the conditions in the statement are proved to be needed (findings)")
m("C66","proved",["C66a_changes_nothing","C66b_lists","C66c_question","C66d_first_command","C66e_certain","C66f_answer","C66g_nothing","C66_flags_off","C66_fewer_refuted","C66_more_refuted"],"same model of nodes and decision as C65 (content decider, no AlwaysBuild, caches, variant directories, repositories, side effects); theorems about runs that come to their end; that the list differs from a real run is proved by two cases (findings)")
m("C67","proved",["C67a_current","C67b_nothing","C67c_second","C67d_unchanged","C67e_changed","C67_case","C67_shadow_refuted","C67_unchanged_refuted","C67_leftover_refuted"],"decision by content; hash injective; a command that fails leaves no target; files that are built are not edited by hand (they may be removed); no variant directories, repositories, caches, side effects, Requires and Ignore; the conditions in the statement are proved to be needed, and the last sentence is a finding")
m("C68","proved",["C68a_names","C68b_one","C68c_stands","C68d_find_file","C68e_scan","C68f_order","C68_case","C68_unfinished_refuted","C68_missed_refuted"],"what is in a directory (entries, disk, variant directories, repositories) is given; POSIX names; the files do not change while find_file remembers; the exceptions in the statement are proved to be real (findings)")
m("C69","proved",["C69a_flags","C69b_dependencies","C69c_linked_library","C69_case","C69_suffix_refuted","C69_extension_refuted","C69_dash_refuted","C69_string_refuted","C69_prefix_name_refuted","C69_literal_refuted"],"names without $; LIBS a string or a flat list; POSIX; the linker is specified in LibSpec (first directory with any library of that name); C69b for names without slash; the exceptions in the statement are proved (findings)")
m("C70","proved",["C70a_reasons","C70b_explained","C70c_first","C70_case","C70_unknown_refuted","C70_crash_refuted"],"file nodes; on top of the model of the decision of C12-C15 and C46; the text of the message is not modelled; the two conditions in the statement are proved to be needed (findings)")
m("C71","proved",["C71a_same_result","C71b_not_written","C71c_disabled","C71d_nocache","C71e_show","C71f_filled","C71g_shared","C71h_dry_run","C71i_dry_lists","C71_case","C71_dry_removes_refuted","C71_force_refuted","C71_dry_nocache_refuted","C71_dry_more_refuted","C71_dry_stale_refuted","C71_created_refuted"],"tasks one after another in any order; commands are functions of the contents of the dependencies; copying always succeeds (crashes: C19; several targets: C20; keys: C21); --cache-debug is not modelled")
m("C72","proved",["C72a_symbolic","C72b_numeric","C72c_only_named","C72d_not_understood","C72_case","C72_equals_refuted","C72_no_class_refuted","C72_accepted_refuted","C72_all_or_nothing_refuted"],"POSIX; the user may change the files; names lead to the same files throughout; only the letters r, w, x (others are refused)")
m("C73","proved",["C73a_copy_directory","C73b_install_directory","C73c_file","C73d_link","C73e_list","C73f_delete_only","C73g_delete","C73h_must_exist","C73i_apart","C73j_no_links","C73_case","C73_stale_refuted","C73_through_link_refuted","C73_into_refuted","C73_directory_mode_refuted","C73_writable_refuted","C73_follow_refuted","C73_link_text_refuted","C73_same_name_refuted","C73_delete_order_refuted"],"POSIX; files have contents and modes only; permissions are not checked; the parent directory of the destination exists; no hard links; .. in link texts is resolved when the link is read; shutil.copytree and scons_copytree are one function")
m("C74","proved",["C74a_replace","C74a_unique","C74b_untouched","C74c_template","C74d_order","C74e_written","C74e_one_target","C74f_signature","C74g_same_text","C74_case","C74_case_sequence","C74_case_values","C74_refuted_line_separator","C74_refuted_variable_in_value","C74_refuted_pairs","C74_refuted_order","C74_refuted_blanks","C74_refuted_paren","C74_refuted_callable","C74_refuted_encoding","C74_refuted_open_paren","C74_refuted_same_delimiter","C74_refuted_alias_line","C74_refuted_empty_key"],"8-bit characters; LINESEPARATOR as a Value node is not modelled; dictionaries whose text is shorter than a million characters; the sources are taken to be the same, their own signatures are C01")
m("C75","proved",["C75a_missing_source","C75a_complete","C75a_missing_dependency","C75b_nothing_else","C75c_prepared","C75d_no_exec","C75e_succeeds","C75_case","C75_refuted_atomic","C75_refuted_directory","C75_refuted_directory_target","C75_refuted_uptodate"],"the answers nodes remember about the disk are taken to be right; POSIX; permissions always suffice; copies in variant directories are C57")
m("C76","proved",["C76a_rules","C76b_line_ends","C76c_added","C76d_errors","C76_case","C76_case_unfinished","C76_refuted_continuation","C76_refuted_blank","C76_refuted_drive","C76_refuted_comment","C76_refuted_makefile","C76_refuted_only_one"],"8-bit characters; names stand for nodes (no dollar signs, no aliases); the name of the file is already expanded")
m("C77","proved",["C77a_arguments","C77b_short","C77c_history","C77d_exit","C77e_encoding","C77_case","C77_case_fresh","C77_refuted_arguments","C77_refuted_stale","C77_refuted_lines","C77_refuted_limit"],"the expansion of the command is given (C13); what tempfile.mkstemp promises (a new name) is a hypothesis, shown satisfiable; TEMPFILEDIR exists; the extra backslashes for SHELL=sh are not modelled; (c) is for histories in which a command of a target always expands to the same words")
m("C78","proved",["C78a_first","C78b_names","C78c_environment","C78d_detect","C78_case","C78_refuted_links","C78_refuted_reject","C78_refuted_slash","C78_refuted_relative","C78_refuted_empty","C78_refuted_blank"],"POSIX; executable means the execute bit of the owner, as in the code; a link is followed once")
m("C79","proved",["C79a_uses","C79b_modules","C79c_includes","C79d_needs","C79e_used","C79f_makes","C79g_found","C79h_order","C79_case","C79_case_statements","C79_pure_refuted","C79_comment_refuted","C79_continued_refuted","C79_twice_refuted"],"8-bit characters; find_file is a parameter (its subject is C68); the regular expressions are written out as functions and proved to accept exactly the statements of the specification")
m("C80","proved",["C80a_below","C80b_ends","C80c_order","C80d_known","C80e_signature","C80f_same","C80_case","C80_case_signature","C80_newline_refuted","C80_file_refuted","C80_inside_refuted","C80_database_refuted","C80_unknown_refuted","C80_loop_refuted"],"paths are relative to the source directory; what a path is after disambiguate() is a parameter; the hash is a parameter without collisions whose digests have no blanks and no newlines, shown to exist")
m("C81","proved",["C81a_names","C81b_library","C81c_compatible","C81d_otherwise","C81e_links","C81f_upgrade","C81g_clean","C81h_install","C81i_module","C81_case","C81_case_disk","C81_case_off","C81_extension_refuted","C81_soname_alone_refuted","C81_one_part_refuted","C81_directory_refuted","C81_yes_refuted","C81_module_subdirectory_refuted"],"GNU conventions; values of variables are after substitution; one target; a path is a directory and a name, links name things in their own directory; equality of directories is a parameter, shown to exist")
m("C82","proved",["C82a_sources","C82b_actions","C82c_no_actions","C82d_seen","C82e_when","C82f_signature","C82_case","C82_environment_refuted","C82_preaction_refuted","C82_default_refuted","C82_twice_refuted","C82_changed_source_refuted","C82_values_refuted"],"nodes, actions and environments are abstract, with an equality of nodes, shown to exist; the calls are for one alias")
m("C83","proved",["C83a_rebuilt","C83b_same","C83c_read","C83d_kids","C83_case","C83_case_read","C83_hash_refuted","C83_built_refuted","C83_false_refuted","C83_separation_refuted"],"str(), hash() and truth of values are abstract functions; (d) for signatures of one length")
m("C84","proved",["C84a_whole","C84b_ends","C84c_pruned","C84d_ends","C84e_determines","C84f_children","C84_case","C84_case_hypotheses","C84_case_cycle","C84_same_name_refuted","C84_brackets_refuted","C84_derived_refuted","C84_twice_refuted"],"names are clean (one line, not beginning with a bracket or a line-drawing character) in (e), different nodes have different names in the last part of (c) and of (e); the status tags are an abstract text of fixed length")
m("C85","proved",["C85a_last","C85b_nothing","C85c_meaning","C85d_commas","C85e_mandatory","C85_case","C85_case_names","C85_mandatory_refuted","C85_command_line_refuted","C85_set_commas_refuted","C85_types_refuted"],"the order that holds is stated; that it is not the documented one for SetOption and for mandatory warnings is shown; ASCII")
m("C86","proved",["C86a_path","C86a_abspath","C86a_relpath","C86a_rel_path","C86b_path","C86b_abspath","C86b_relpath","C86ab_attributes","C86c_parts","C86c_windows","C86d_srcpath","C86e_combined","C86e_each","C86_case","C86_nested_case","C86_outside_refuted","C86_file_suffix_refuted","C86_splitext_refuted","C86_cwd_refuted"],"POSIX; one node per place (C26); rsrcpath and rsrcdir with repositories are not covered")
m("C87","proved",["C87a_sound","C87b_complete","C87c_returns","C87_case","C87_cycle_case","C87_leaves_refuted","C87_entry_refuted"],"what is in a directory is its in-memory entries (C80); the order of the result is that of a Python set")
m("C88","proved",["C88a_interval","C88b_overwrite","C88c_rotation","C88_case","C88_leftover_case","C88_overwrite_refuted","C88_rotation_refuted"],"a terminal that does not wrap lines; nothing else written to it in between; interval=0 and empty lists are errors and not modelled")
m("C89","proved",["C89a_directories","C89b_directory","C89c_climb","C89d_none","C89e_fallback","C89_case","C89_typo_refuted","C89_elsewhere_refuted","C89_repository_refuted","C89_absolute_file"],"POSIX, no symbolic links; paths are followed as in C56; -h without an SConstruct and -f - are not modelled; (d) from the current directory without -f and -Y")
m("C90","proved",["C90a_package","C90b_accepts","C90c_save","C90d_path","C90e_path_accepts","C90_case","C90_default_case_refuted","C90_default_false_refuted"],"on the model of Variables.Update and Save of C54; texts without dollar signs; the undocumented searchfunc and PathIsDirCreate are not modelled; (c) for a default without white space that is a path or a word in lower case")
m("C91","proved",["C91a_split","C91b_split_others","C91c_flatten","C91d_add","C91e_text","C91_case","C91_text_refuted"],"which characters are white space is a parameter; lists are finite trees (no list contains itself); env.Split, which expands first, is not modelled")
