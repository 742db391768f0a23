# Formal model of SCons in Coq 8.16.1

(Generated by `tools/design.py` from `tools/design_head.md`, the property list, the manifest and the headers of the model files.)

## Method
The model is a set of small, executable Gallina functions that follow the Python
source branch by branch (`rocq/theories/*Model.v`).  Python exceptions are values, mutation is state
passing (with an explicit heap where aliasing matters: EnvModel, CloneModel), loops are structural recursion or
fuelled recursion whose out-of-fuel result is a distinguished value that theorems exclude (or prove unreachable).
Concurrency is interleaving of atomic steps chosen by an arbitrary scheduler; a crash is a prefix of a sequence of file-system steps.
Every definition carries a comment with file and lines in /repo.  For each area there are these kinds of file:

* `XxxModel.v`   - the model of the code (no proofs, so it survives broken proofs);
* `XxxSpec.v`    - vocabulary of the statements, independent of the model's helper functions (sometimes a section at the top of `XxxProps.v`);
* `XxxProofs.v` and others - lemmas and invariants;
* `XxxProps.v`   - the property theorems, followed by `Print Assumptions`, with `Example`s (`..._witness`)
  showing that the hypotheses are satisfiable by a concrete, non-trivial case.

Where the unchanged code violates the English property, a theorem `..._refuted` exhibits a
concrete witness (often: for all inputs of a shape), and the strongest true restriction is proved beside it; the English statement names
the exception.  These are findings about the code, collected at the end of this file.

Theorems were tested by editing the model the way a bug would change the program and rebuilding everything (`tools/mutate.py`,
results in `seeded/LOG.jsonl`).

## Trusted base
* The Coq 8.16.1 kernel (`coqc`; the compiled files also pass `coqchk`); no native code, no plugins, no extraction.
* `Print Assumptions` is run under each property theorem; the answer is "Closed under the global context" for every one of them:
  no axiom, neither of our own nor of the standard library, is used.  (The seven `Coq.ssr.ssrunder` names vcheck counts are
  parameters of a module type in a library file that is loaded but on which no theorem depends.)
* The model itself: it was written by reading the Python text; nothing extracts it from the code.  What each model file covers and leaves
  out is listed under "Modelled and not modelled".
* Section variables (`Variable`, `Hypothesis` inside `Section`) are discharged: they appear as explicit hypotheses of the theorems.  The
  hypotheses that stand for things outside the code are
  - hashing: `hash` injective on the texts considered (C13, C14, C21, C41, C42), incremental `update` (C33);
  - pickle: `codec_ok` (see DbSpec.v: decoding what was encoded gives it back, dumps are not empty) (C16-C18);
  - the operating system: rename is atomic, `O_EXCL` creation is exclusive, written data survive the death of the process (not power failure);
  - timestamps: where stated, that a file changed since it was recorded has another timestamp (MD5-timestamp decider, max_drift);
  - user code (actions, emitters, scanners, callables, `eval` of `${...}` expressions) is an arbitrary function.

## Properties: what is modelled, how it is proved

| Id | Property | Model | Proof | Theorems |
|----|----|----|----|----|
| C01 | Dependencies before dependents | TMModel (Taskmaster, Task) | inductive invariant over reachable states of the task machine, any schedule of completions | TMProps: `C01_dependencies_first` |
| C02 | Each target is built at most once per run | TMModel (Taskmaster, Task) | invariant: states only move forward; count of executions | TMProps: `C02_at_most_once`, `C02b_at_most_once_with_side_effects` |
| C03 | Nothing is built on top of a failed dependency | TMModel (Taskmaster, Task) | invariant relating failed nodes to waiting parents | TMProps: `C03_nothing_on_failed` |
| C04 | A stopping failure issues no further tasks | TMModel (Taskmaster, Task) | invariant after stop() | TMProps: `C04_stop_is_final`, `C04b_failure_stops` |
| C05 | A finished run is complete | TMModel (Taskmaster, Task) | counting invariant (ref_count = unexecuted children) and completeness of the candidate search | TMProps, TMProps2: `C05_complete`, `C05b_complete_keep_going`, `C05_side_effect_target_refuted` |
| C06 | The ready-node search terminates | TMModel (Taskmaster, Task) | lexicographic measure over candidates and pending children | TMProps2: `C06_requests_terminate`, `C06b_tasks_bounded` |
| C07 | Dependency cycles are reported, and only cycles | TMModel (Taskmaster, Task) | counting argument: a node left pending with nothing running lies over a cycle | TMProps, TMProps3: `C07_acyclic_silent`, `C07b_cycle_reported`, `C07c_reported_cycle_genuine`, `C07d_cycle_reported_keep_going`, `C07e_acyclic_no_cycle_printed`, `C07_keep_going_refuted` |
| C08 | Tasks sharing a side effect never run concurrently | TMModel (Taskmaster, Task) | invariant: side-effect nodes serialised by waiting_s_e | TMProps2, TMProps3: `C08_side_effects_exclusive`, `C08b_side_effects_exclusive_keep_going`, `C08_keep_going_refuted` |
| C09 | Parallel builds never exceed -j N running tasks | JobModel (NewParallel._work) and LegacyModel (LegacyParallel, Worker, ThreadPool) over TMModel | invariant over all interleavings | JobProps, LegacyProps: `C09_at_most_n_running`, `C09b_taskmaster_serialised`, `C09c_legacy_limit` |
| C10 | The parallel scheduler loses no task and does not finish early | JobModel, LegacyModel | multiset invariant: every task is in exactly one place | JobOut, JobProps, LegacyProps: `C10_no_task_lost`, `C10b_completion_not_early`, `C10c_parallel_complete`, `C10d_legacy_no_task_lost`, `C10e_legacy_not_early`, `C10f_legacy_complete`, `C10g_legacy_outcomes` |
| C11 | The parallel scheduler cannot deadlock, and the build comes to an end | JobModel, LegacyModel | progress: from every reachable state some thread can step; wake-up invariant; termination by a lexicographic measure over node states, outstanding tasks and thread positions | JobProps, JobTerm, LegacyProps: `C11_no_deadlock`, `C11b_single_worker_never_waits`, `C11c_legacy_no_deadlock`, `C11d_build_terminates`, `C11e_legacy_terminates` |
| C12 | A build followed by no change rebuilds nothing | DecModel | store/load round trip of build information | DecProps: `C12_null_build`, `C12b_null_build_md5_timestamp`, `C15_ignored_depends_refuted` |
| C13 | Every relevant change triggers a rebuild | DecModel | equivalence of the loop with a declarative condition, list induction | DecProps: `C13_up_to_date_iff`, `C13b_missing_is_out_of_date`, `C13c_repository`, `C13d_md5_timestamp_iff` |
| C14 | Each dependency's content is compared with the signature recorded for that same dependency | DecModel | alignment of recorded and current dependency lists | DecProps: `C14_same_dependency`, `C14b_same_dependency_nodes`, `C14_ignored_depends_refuted` |
| C15 | Ignored dependencies never force or alter a rebuild | DecModel | non-interference | DecProps: `C15_ignored_state_irrelevant`, `C15b_ignored_like_absent`, `C15_ignored_depends_refuted` |
| C16 | The signature database survives a crash | DbModel (dblite) | prefix case analysis over file-system steps; history induction | DbProps: `C16_crash_safe`, `C16b_history` |
| C17 | The signature database is a map: close and reopen returns what was last stored | DbModel | refinement to a finite map over operation histories | DbProps: `C17_close_reopen`, `C17b_read_only`, `C17c_directories`, `C17_delete_refuted` |
| C18 | Per-directory signature files survive a crash | DbModel (SConsign.DirFile) | prefix case analysis | DbProps: `C18_dirfile_crash`, `C18_dirfile_crash_refuted` |
| C19 | Cache entries are all-or-nothing | CacheModel | invariant over all interleavings of pushing, fetching, dying processes | CacheProps: `C19_cache_entries_complete` |
| C20 | Multi-target cache retrieval is all-or-nothing | CacheModel | loop invariant | CacheProps: `C20_all_or_nothing` |
| C21 | Cache keys depend on everything that determines the output | CacheModel | injectivity of the key text | CacheProps: `C21_key_determines_inputs`, `C21_delimiter_refuted` |
| C22 | Substitution leaves text without $ unchanged | SubstModel | induction over fuel and tokens | SubstLines, SubstProps: `C22_no_dollar`, `C22b_text_before`, `C22c_text_after`, `C22d_words`, `C22e_lines`, `C22f_joined` |
| C23 | $$ always denotes one literal dollar sign | SubstModel | induction over well-formed strings | SubstProps: `C23_one_dollar`, `C23b_cmd_count`, `C23_stray_refuted`, `C23_cmd_paren_refuted`, `C23_list_refuted`, `C23_sig_refuted` |
| C24 | Variable expansion always terminates | SubstModel | measure: variables not yet being expanded | SubstTerm: `C24_terminates`, `C24_dotted_expression_refuted` |
| C25 | $( ... $) text never influences build signatures | SubstModel | induction over balanced strings | SubstProps: `C25_signature_ignores`, `C25b_fixed_text`, `C25c_command_keeps`, `C25d_command_line_keeps`, `C25_list_nesting_refuted` |
| C26 | Override environments never modify their parent | EnvModel | induction over operation histories on a heap | EnvProps: `C26_parent_untouched`, `C26b_own_variables`, `C26c_override`, `C26_append_refuted` |
| C27 | An override environment behaves like a dictionary layered over the parent | EnvModel | refinement to layered dictionaries | EnvProps: `C27_lookup_like_dictionary`, `C27b_dictionary_view`, `C27c_substitution_view`, `C27_deleted_twice_refuted`, `C27_replace_refuted`, `C27_subst_refuted` |
| C28 | AppendUnique and PrependUnique never introduce duplicates | EnvModel | list induction | EnvProps: `C28_adds_new_only`, `C28b_moves`, `C28c_single`, `C28d_new_variable` |
| C29 | PrependPath/AppendPath put new directories at the right end without duplicates | PathsModel | list induction | PathsProps: `C29_prepend`, `C29b_append`, `C29c_prepend_keep`, `C29d_append_keep`, `C29e_add_if_not_exists`, `C29_argument_refuted`, `C29_old_duplicates_refuted`, `C29_first_one_refuted` |
| C30 | Removing duplicates keeps first occurrences in order | PathsModel | list induction | PathsProps: `C30_first_occurrences`, `C30b_unique`, `C30c_unique_list`, `C30_init_refuted`, `C30_pop_refuted`, `C30_partial_order_refuted` |
| C31 | File node identity is path identity | FsModel | refinement of the lookup tables to canonical paths | FsProps: `C31_node_identity`, `C31b_lookup`, `C31c_lookup_succeeds`, `C31d_existing_found`, `C31_refuted_slashes`, `C31_refuted_newline` |
| C32 | rel_path is correct | FsModel | induction over common prefixes | FsProps: `C32_rel_path`, `C32b_rel_path_lookup`, `C32c_get_path`, `C32_refuted_hash` |
| C33 | Chunked hashing equals hashing the whole file | CacheModel (hashing part) | induction on chunks | CacheProps: `C33_chunk_size_irrelevant`, `C33_zero_chunk` |
| C34 | Exit status reflects failures | StatusModel | fold invariant | StatusProps: `C34_exit_status`, `C34b_zero_iff_no_failure`, `C34c_other_cases`, `C34d_question`, `C34e_from_actions`, `C34_refuted_exit_zero` |
| C35 | The lock file gives mutual exclusion | LockModel | invariant over interleavings, with crashes | LockProps: `C35_mutual_exclusion`, `C35b_lock_file_present`, `C35c_acquirable`, `C35d_release`, `C35e_errors`, `C35_refuted_descriptor_zero`, `C35_refuted_killed` |
| C36 | Implicit-dependency scanning finds the whole include closure and terminates | ScanModel | worklist invariant: visited = reachable; termination measure | ScanProps: `C36_closure`, `C36a_terminates`, `C36b_general`, `C36c_each_once`, `C36d_history`, `C36e_scan_targets`, `C36f_classic_scan`, `C36_mixed_refuted`, `C36_twice_refuted`, `C36_no_sources_refuted`, `C36_includes_cache_refuted` |
| C37 | Path-list caching does not change results | PathListModel | history invariant | PathListProps: `C37_cache_transparent`, `C37b_same_path`, `C37c_flatten`, `C37_refuted_split` |
| C38 | Conditional preprocessing selects exactly the active branch | CppModel | simulation of the directive automaton by a nested-group semantics | CppProps: `C38_active_groups`, `C38b_terminates`, `C38c_include_macro`, `C38d_dumb`, `C38e_directive`, `C38_skipped_condition_refuted`, `C38_self_macro_refuted`, `C38_read_once_refuted`, `C38_include_next_refuted`, `C38_two_comments_refuted` |
| C39 | Files are searched in repositories in order | RepoModel | induction over the search list | RepoProps: `C39_first_repository`, `C39b_declaration_order`, `C39c_find_file`, `C39d_find_file_memo`, `C39e_repository_call`, `C39f_variant_dir`, `C39g_variant_find_file`, `C39h_local_file`, `C39_directory_refuted`, `C39_rentry_refuted`, `C39_outside_refuted`, `C39_variant_loop_refuted`, `C39_find_file_refuted` |
| C40 | At-exit functions run once each in reverse order of registration | ExitModel | induction over call trees | ExitProps: `C40_exit_functions`, `C40b_terminates`, `C40_refuted_exception` |
| C41 | Incremental builds give the same files as a clean build | IncrModel over DecModel | history invariant: the database only vouches for what a clean build gives | IncrProps: `C41_incremental_equals_clean`, `C41b_full_runs`, `C41c_no_drift`, `C41_killed_refuted`, `C41_max_drift_refuted` |
| C42 | A file fetched from the cache is what building it would give | CacheModel, DecModel | induction over histories of pushes and fetches | CacheProps: `C42_fetched_equals_built` |
| C43 | Append and Prepend add at the documented end | EnvModel | case analysis over value kinds | EnvProps: `C43_append_prepend`, `C43b_new_variable` |
| C44 | A failing action stops the task and fails it | StatusModel | induction over action lists | StatusProps: `C44_stop_at_first_failure`, `C44_refuted_same_file`, `C44_refuted_errno_zero` |
| C45 | An #if condition holds exactly when it does in C | CondModel | structural induction over expressions | CondProps: `C45_conditions`, `C45b_conditional`, `C45_undefined_refuted`, `C45_conditional_refuted`, `C45_quotient_refuted`, `C45_logical_value_refuted`, `C45_zero_division_refuted` |
| C46 | Timestamp deciders, and deciders mixed in one target, decide dependency by dependency | DecModel | as C13 with one decider per dependency | DecProps2: `C46_mixed_deciders`, `C46b_timestamp_newer`, `C46c_timestamp_match`, `C46d_null_build`, `C46_replaced_dependency_refuted` |
| C47 | Actions run in the order given, up to the first failure | ActionModel | induction over action trees | ActionProps: `C47_actions_in_order`, `C47b_first_failure_stops`, `C47c_executor`, `C47d_prefix`, `C47e_ignored_never_fails`, `C47_second_line_refuted`, `C47_generator_list_refuted`, `C47_lazy_loop_refuted` |
| C48 | The action signature changes when what is executed changes, and only then | ActionModel | congruence and cancellation over action trees | ActionProps: `C48_plus`, `C48b_plus_associative`, `C48c_change_noticed`, `C48d_nothing_else_matters`, `C48e_executor`, `C48g_plus_neutral`, `C48_joined_refuted`, `C48_callable_state_refuted` |
| C49 | Executors keep targets and sources of all batches | ActionModel (Executor) | list induction | ExecProps: `C49_changed_lists`, `C49b_add_sources`, `C49c_sources_of_target`, `C49d_all_children`, `C49e_prepare`, `C49_add_sources_refuted` |
| C50 | scons -c removes what was built and nothing else | CleanModel | induction over directory trees and task lists | CleanProps: `C50_removes_only_asked`, `C50b_removes_all_asked`, `C50c_dry_run`, `C50d_whole_run`, `C50e_clean_is_additive`, `C50f_clean_is_exact`, `C50_shared_list_refuted`, `C50_noclean_refuted`, `C50_second_target_refuted`, `C50_sibling_refuted` |
| C51 | Command words and file names reach the program unchanged | QuoteModel | induction over characters against a shell word grammar | QuoteProps: `C51_words_reach_program`, `C51b_file_names`, `C51c_response_file`, `C51_backquote_refuted`, `C51_changed_command_refuted`, `C51_empty_argument_refuted`, `C51_length_refuted` |
| C52 | A cloned environment and its original are independent | CloneModel | heap separation invariant over histories | CloneProps: `C52_independent`, `C52b_clone_values`, `C52c_clone_returns`, `C52d_snapshot`, `C52_refuted_cycle`, `C52_refuted_opaque` |
| C53 | An interrupt stops the build cleanly | JobModel | invariant over interleavings with signals, decreasing measure | JobInt, JobOut, LegacyProps: `C53_interrupt_stops`, `C53b_interrupt_bounded`, `C53c_results_reported`, `C53d_interrupt_ends`, `C53e_final_account`, `C53f_finished_means_built`, `C53g_legacy_interrupt`, `C53h_outcomes_recorded`, `C53_ignore_errors_refuted` |
| C54 | Build variables: command line before files before defaults, validated, and restored by Save | VarModel | induction over assignments; round trip of the saved text | VarProps, VarProps2: `C54_update_precedence`, `C54b_others_untouched`, `C54c_unknown`, `C54d_defaulted`, `C54e_validated`, `C54f_save_load`, `C54g_bool`, `C54h_enum`, `C54i_list`, `C54j_add`, `C54k_accepts`, `C54_bool_none_refuted`, `C54_list_default_refuted`, `C54_save_raises_refuted` |
| C55 | There is one way to build each target | BldModel | invariants over histories of calls | BldProps, BldProps2, BldProps3: `C55_conflicts_refused`, `C55b_recipe`, `C55c_one_command`, `C55d_side_effects`, `C55e_repeated_call`, `C55f_multi_targets`, `C55g_multi_sources`, `C55h_added_actions`, `C55_same_env_refuted`, `C55_overlap_refuted`, `C55_early_action_refuted`, `C55_early_action_multi_refuted`, `C55_repeated_source_refuted` |
| C56 | Sources are turned into what a builder needs, and targets get their names | NameModel, SrcModel | induction over names, over the depth of builder calls and over histories | NameProps, NameProps2, NameProps3, SrcProps, SrcProps2, SrcProps3: `C56_extension`, `C56_extension_unique`, `C56b_target_name`, `C56c_adjusted_name`, `C56d_adjust_idempotent`, `C56e_action_for_suffix`, `C56f_refused_suffixes`, `C56g_action_found`, `C56h_add_action`, `C56i_sources_in_order`, `C56j_no_source_lost`, `C56k_nothing_else`, `C56l_each_source`, `C56m_names`, `C56n_suffixes_current`, `C56o_suffixes`, `C56_suffix_alone_refuted`, `C56_trailing_slash_refuted`, `C56_two_sources_one_target_refuted`, `C56_source_order_refuted`, `C56_list_refuted`, `C56_source_lost_refuted`, `C56_variable_suffix_refuted`, `C56_first_suffix_refuted`, `C56_new_suffix_refuted` |
| C57 | Variant directories mirror their sources and never damage them | VdirModel | induction over histories of calls; invariant over runs on a disk with shared files | VdirProps, VdirProps2, VdirProps3: `C57a_variantdir_result`, `C57b_srcnode`, `C57b_dir_srcnode`, `C57c_alter_targets`, `C57c_alter_dir_targets`, `C57d_duplicate_flag`, `C57e_sources_untouched`, `C57f_copies_faithful`, `C57g_no_exec`, `C57h_ends_shallow`, `C57h_ends_disjoint`, `C57i_target_written`, `C57_no_exec_removes_refuted`, `C57_precious_writes_source_refuted`, `C57_unremovable_copy_refuted`, `C57_relative_symlink_refuted`, `C57_mutual_variants_refuted`, `C57_duplicate_order_refuted` |
| C58 | ParseFlags and MergeFlags put every flag where it belongs | FlagModel | FlagSpec has the documented table; each branch of the code is shown to be the longest entry matching; induction over words and over the entries merged | FlagCases, FlagProps2, FlagProps3, FlagProps4: `C58a_flags_go_where_documented`, `C58b_nesting_is_irrelevant`, `C58c_words_may_be_split`, `C58d_quoted_words_arrive`, `C58e_one_string_or_two`, `C58f_accepted`, `C58g_merge_removes_duplicates`, `C58h_merge_same_elements`, `C58i_merge_flags`, `C58j_merge_twice`, `C58k_macros_survive`, `C58l_define_flags`, `C58_every_string_accepted_refuted`, `C58_list_of_words_refuted`, `C58_std_refuted`, `C58_merge_keeps_the_dictionary_refuted`, `C58_merge_deque_refuted`, `C58_merge_tuple_refuted`, `C58_merge_tuple_elements_refuted` |
| C59 | Preprocessor macros: what is defined is what was added | FlagModel | DefnProps: case analysis over the forms of both values; induction over entries | DefnProps, DefnProps2, DefnProps3: `C59a_first_value`, `C59b_append`, `C59c_prepend`, `C59c_prepend_one`, `C59d_nothing_lost`, `C59e_append_unique`, `C59f_unique_no_duplicates`, `C59g_append_unique_moves`, `C59h_prepend_unique_moves`, `C59i_merge_into_deque`, `C59_prepend_order_refuted`, `C59_unique_numbers_refuted`, `C59_unique_equal_signs_refuted`, `C59_unique_one_tuple_refuted`, `C59_unique_within_list_refuted`, `C59_doc_example_refuted`, `C59_append_scalar_refuted` |
| C60 | SConscript files: each in its own namespace and directory, with Export, Import and Return | SconModel: stack machine with heap of frames | SconSpec: big-step rules without a stack; equivalence by simulation both ways | SconProps4: `C60a_scripts_behave`, `C60b_one_result`, `C60c_caller_untouched`, `C60d_process_directory`, `C60_return_stdin_refuted`, `C60_return_stops_refuted`, `C60_return_local_refuted`, `C60_process_directory_refuted` |
| C61 | Command-line options: the command line, then SetOption, then the default | OptModel | OptSpec: grammar of command lines and what occurrences say; invariant over the history of calls: each word left is one item, long and other words keep their order, the values of an option are its occurrences applied in order | OptProps5, OptProps6, OptProps7, OptProps8, OptProps9: `C61a_precedence`, `C61b_unknown`, `C61c_targets`, `C61d_refused`, `C61e_set_errors`, `C61e_case`, `C61_script_one`, `C61_value_one`, `C61_separate_refuted`, `C61_dash_word_refuted`, `C61_two_forms_refuted`, `C61_append_default_refuted`, `C61_chunksize_refuted`, `C61_implicit_deps_refuted` |
| C62 | Target selection: command line, BUILD_TARGETS, Default, and -u, -D, -U | TgtModel (with OptModel for the command line) | TgtSpec: default targets since the last None, relation between names and paths, relation kept for -u; induction over the history and over the starting directory | TgtProps, TgtProps2, TgtProps3, TgtProps4: `C62a_lists`, `C62_means_one`, `C62b_climb`, `C62c_asked`, `C62d_defaults`, `C62e_up`, `C62f_Up`, `C62g_arguments`, `C62h_command_line`, `C62_dashdash_refuted`, `C62_U_directory_refuted`, `C62_U_no_default_refuted`, `C62_hand_names_refuted` |
| C63 | Glob finds exactly the matching files and targets | GlobModel (with lookup of TgtModel); fnmatch and os.path.split modelled too | GlobSpec: relational matching, patterns as levels, found by induction over levels; invariant of the node table during the search, strong induction over the pattern | GlobProps, GlobProps4, GlobProps5: `C63a_nodes`, `C63b_strings`, `C63c_order`, `C63d_nodes_after`, `C63e_fnmatch`, `C63f_opens`, `C63g_plain`, `C63_source_refuted`, `C63_exclude_brackets_refuted`, `C63_top_refuted`, `C63_missing_directory_refuted`, `C63_hash_refuted`, `C63_trailing_slash_refuted`, `C63_ties_refuted`, `C63_chain_refuted` |
| C64 | Configure tests: a result from an earlier run is given only while it is right | CfgModel: node states, removal before building, recorded results, modes | CfgSpec: running all commands on a scratch directory; invariant over the history: what is recorded is what the command did and the file is what it left | CfgProps2, CfgProps3: `C64a_result`, `C64b_once`, `C64c_force`, `C64d_cache`, `C64e_dry`, `C64f_try_run`, `C64_fresh_one`, `C64_stale_header_refuted`, `C64_removed_directory_refuted`, `C64_cache_removes_refuted` |
| C65 | Interactive mode: every build command does what a separate run of scons would do | IntModel: node memory kept between builds, taskmaster steps, Walker, clear | IntSpec: separate runs from fresh nodes; invariant: every node that remembers anything is reachable over the present children from the targets, so the walk clears it; a second invariant (signatures and includes remembered are those of the files) gives that targets are current; termination of the walk by the number of nodes not on the stack | IntProps, IntProps2, IntProps3, IntProps6: `C65a_session`, `C65b_current`, `C65_run_current`, `C65c_clears`, `C65_requires_refuted`, `C65_siblings_refuted`, `C65_dropped_refuted` |
| C66 | scons -n and scons -q tell the truth and change nothing | NxModel: flags execute_actions and do_store_info, QuestionTask; nodes and steps of IntModel | NxSpec: outdated with respect to the present files; invariant: what is remembered about a set of nodes closed under dependencies is what the files at the start say; used with all nodes (-n, -q) and with the nodes below one target (real run) | NxProps2, NxProps3: `C66a_changes_nothing`, `C66b_lists`, `C66c_question`, `C66d_first_command`, `C66e_certain`, `C66f_answer`, `C66g_nothing`, `C66_flags_off`, `C66_fewer_refuted`, `C66_more_refuted` |
| C67 | --implicit-cache: targets are still brought up to date, and nothing is scanned when nothing has changed | ImcModel: scan with a stored list of implicit dependencies, memoized children, decision, records; taskmaster steps | ImcSpec: dependencies by full scan of the present files, histories; invariant over a history: the sources and implicit dependencies in a record are those a scan of the contents recorded finds, and the target is what the command made of them; so equal signatures mean equal dependencies | ImcProps2, ImcProps4, ImcProps5: `C67a_current`, `C67b_nothing`, `C67c_second`, `C67d_unchanged`, `C67e_changed`, `C67_case`, `C67_shadow_refuted`, `C67_unchanged_refuted`, `C67_leftover_refuted` |
| C68 | C sources depend on the files their #include lines name | CscModel: the regular expression as a matcher, findall, os.path.split, filedir_lookup, find_file with its memory, scan with the sort | CscSpec: lines and directives as a grammar, file names cut at slashes, first directory along a path; induction over the text line by line; uniqueness of sorted lists with distinct keys | CscProps, CscProps2, CscProps3: `C68a_names`, `C68b_one`, `C68c_stands`, `C68d_find_file`, `C68e_scan`, `C68f_order`, `C68_case`, `C68_unfinished_refuted`, `C68_missed_refuted` |
| C69 | LIBS: the library the linker picks is a dependency of the program | LibModel: _PathList, _stripixes, _concat_ixes, the program scanner; find_file of CscModel, adjustixes of NameModel | LibSpec: bare names, options in order, a linker that takes any library from the first directory that has one; the name the scanner looks for is prefix, bare name and suffix for plain names, by the theory of extensions (C56) | LibProps, LibProps2, LibProps3, LibProps4: `C69a_flags`, `C69b_dependencies`, `C69c_linked_library`, `C69_case`, `C69_suffix_refuted`, `C69_extension_refuted`, `C69_dash_refuted`, `C69_string_refuted`, `C69_prefix_name_refuted`, `C69_literal_refuted` |
| C70 | --debug=explain gives the true reasons for a rebuild | WhyModel: Node.explain over the records, signatures and deciders of DecModel | WhySpec: true reasons by the old and new lists of dependencies and the four deciders; the signature found for a dependency is its own (C14b); the outcome of a decider does not depend on the state of the run, so that deciding and explaining agree | WhyProps, WhyProps2: `C70a_reasons`, `C70b_explained`, `C70c_first`, `C70_case`, `C70_unknown_refuted`, `C70_crash_refuted` |
| C71 | The options of the derived-file cache do what they say | CopModel: Task.execute with retrieve, push and visited under the options, the disk, the cache directory, .sconsign and the printed lines; other processes change the cache between tasks | CopSpec: a build without a cache; simulation with a sound cache as invariant; simulation of two runs for --cache-disable, NoCache and --cache-show; induction over the tasks for a second build and for -n | CopProps2, CopProps3, CopProps4, CopProps5, CopProps6: `C71a_same_result`, `C71b_not_written`, `C71c_disabled`, `C71d_nocache`, `C71e_show`, `C71f_filled`, `C71g_shared`, `C71h_dry_run`, `C71i_dry_lists`, `C71_case`, `C71_dry_removes_refuted`, `C71_force_refuted`, `C71_dry_nocache_refuted`, `C71_dry_more_refuted`, `C71_dry_stale_refuted`, `C71_created_refuted` |
| C72 | Chmod() sets the permissions it is given | ChmModel: chmod_func on texts of modes and bits of files | ChmSpec: chmod(1) bit by bit on clauses, and how they are written; induction over clauses and files, bits by N.testbit | ChmProps, ChmProps2: `C72a_symbolic`, `C72b_numeric`, `C72c_only_named`, `C72d_not_understood`, `C72_case`, `C72_equals_refuted`, `C72_no_class_refuted`, `C72_accepted_refuted`, `C72_all_or_nothing_refuted` |
| C73 | Copy, Delete and Install do to files what they say and nothing else | InsModel: a file system with links, path resolution with a link limit, the system calls, shutil copyfile/copy2/copystat/copytree/rmtree, copy_func, delete_func, copyFunc | InsSpec: the tree that is seen at a source, apart, plain; induction over depth and names with the invariant that only the destination has changed; separate proof that it succeeds; induction over the list for Delete | InsProps5, InsProps6, InsProps7, InsProps8: `C73a_copy_directory`, `C73b_install_directory`, `C73c_file`, `C73d_link`, `C73e_list`, `C73f_delete_only`, `C73g_delete`, `C73h_must_exist`, `C73i_apart`, `C73j_no_links`, `C73_case`, `C73_stale_refuted`, `C73_through_link_refuted`, `C73_into_refuted`, `C73_directory_mode_refuted`, `C73_writable_refuted`, `C73_follow_refuted`, `C73_link_text_refuted`, `C73_same_name_refuted`, `C73_delete_order_refuted` |
| C74 | Textfile and Substfile write the text they are given, and write it again when it changes | TxtModel: str.replace, the substitutions one after the other, the action, arg2nodes for strings and nested lists, repr and pformat of a dictionary, and the signature through the subst of SubstModel | TxtSpec: replacement as a relation, templates filled in at once, joined lines; induction over the text and over the entries; repr and pformat are shown to be uniquely readable | TxtProps, TxtProps2, TxtProps3: `C74a_replace`, `C74a_unique`, `C74b_untouched`, `C74c_template`, `C74d_order`, `C74e_written`, `C74e_one_target`, `C74f_signature`, `C74g_same_text`, `C74_case`, `C74_case_sequence`, `C74_case_values`, `C74_refuted_line_separator`, `C74_refuted_variable_in_value`, `C74_refuted_pairs`, `C74_refuted_order`, `C74_refuted_blanks`, `C74_refuted_paren`, `C74_refuted_callable`, `C74_refuted_encoding`, `C74_refuted_open_paren`, `C74_refuted_same_delimiter`, `C74_refuted_alias_line`, `C74_refuted_empty_key` |
| C75 | Before a command is run its sources are checked, its directories made and its old targets removed, and nothing else is touched | PrepModel: Task.prepare, Executor.prepare, Node.prepare, File.prepare, Dir._create, mkdir and unlink on a table of paths | PrepSpec: above, tree, there; a frame relation that is kept by every step and is transitive; invariants of the remaining nodes by induction over them | PrepProps, PrepProps2, PrepProps3: `C75a_missing_source`, `C75a_complete`, `C75a_missing_dependency`, `C75b_nothing_else`, `C75c_prepared`, `C75d_no_exec`, `C75e_succeeds`, `C75_case`, `C75_refuted_atomic`, `C75_refuted_directory`, `C75_refuted_directory_target`, `C75_refuted_uptodate` |
| C76 | ParseDepends reads the dependencies written in a file of make rules, and adds these and nothing else | PdModel: universal newlines, logical_lines, split, the comprehension of ParseDepends, Depends and _add_child | PdSpec: files as an inductive relation between text and rules, words as a relation; induction over the file, over the pieces of a line and over the rules | PdProps, PdProps2: `C76a_rules`, `C76b_line_ends`, `C76c_added`, `C76d_errors`, `C76_case`, `C76_case_unfinished`, `C76_refuted_continuation`, `C76_refuted_blank`, `C76_refuted_drive`, `C76_refuted_comment`, `C76_refuted_makefile`, `C76_refuted_only_one` |
| C77 | Command lines that are too long are put into temporary files: the program gets the same arguments, and no file is left behind | TmpModel: TempFileMunge.__call__ with its memo on nodes, the exit handlers and quote_spaces, on a disk that is a table | TmpSpec: a reader of response files (libiberty) as a state machine; induction over the arguments; an invariant of histories by induction from the end | TmpProps, TmpProps2: `C77a_arguments`, `C77b_short`, `C77c_history`, `C77d_exit`, `C77e_encoding`, `C77_case`, `C77_case_fresh`, `C77_refuted_arguments`, `C77_refuted_stale`, `C77_refuted_lines`, `C77_refuted_limit` |
| C78 | WhereIs and Detect find the first program of the search path | WhModel: WhereIs, Environment.WhereIs, Detect, over a file system with links and the walk the kernel does; join and normpath as in NameModel | WhSpec: where names lead, as a relation, and what it is for a directory to have a program; induction over the search path, over components for normpath | WhProps, WhProps2: `C78a_first`, `C78b_names`, `C78c_environment`, `C78d_detect`, `C78_case`, `C78_refuted_links`, `C78_refuted_reject`, `C78_refuted_slash`, `C78_refuted_relative`, `C78_refuted_empty`, `C78_refuted_blank` |
| C79 | Fortran sources depend on the files they include and the modules they use | FtnModel: the three regular expressions and findall written out, F90Scanner.scan, _fortranEmitter | FtnSpec: USE, MODULE and INCLUDE statements as relations, lines and statements of a text; a general lemma about scanning a text cut into pieces, by induction over the pieces | FtnProps5, FtnProps6: `C79a_uses`, `C79b_modules`, `C79c_includes`, `C79d_needs`, `C79e_used`, `C79f_makes`, `C79g_found`, `C79h_order`, `C79_case`, `C79_case_statements`, `C79_pure_refuted`, `C79_comment_refuted`, `C79_continued_refuted`, `C79_twice_refuted` |
| C80 | A directory as a source stands for everything in it | DrsModel: skip_entry_list, scan_on_disk, scan_in_memory, the loop of get_implicit_deps, get_contents_dir and get_csig over trees | DrsSpec: Below, At, Same; an invariant of the loop (what is found is reachable, what is not yet looked at is in the list), a measure for its end; induction over trees for signatures | DrsProps, DrsProps2: `C80a_below`, `C80b_ends`, `C80c_order`, `C80d_known`, `C80e_signature`, `C80f_same`, `C80_case`, `C80_case_signature`, `C80_newline_refuted`, `C80_file_refuted`, `C80_inside_refuted`, `C80_database_refuted`, `C80_unknown_refuted`, `C80_loop_refuted` |
| C81 | Versioned shared libraries are found by their recorded name | VslModel: shlib_symlink_emitter, _soversion, _soname, _get_shlib_stem, CreateLibSymlinks, copyFuncVersionedLib and the variables of setup_shared_lib_logic over texts and a map from paths to entries | VslSpec: FirstPart, Soname, Leads, Free; algebra of texts (with C56c for the name of the library), induction over the list of links | VslProps, VslProps2, VslProps3: `C81a_names`, `C81b_library`, `C81c_compatible`, `C81d_otherwise`, `C81e_links`, `C81f_upgrade`, `C81g_clean`, `C81h_install`, `C81i_module`, `C81_case`, `C81_case_disk`, `C81_case_off`, `C81_extension_refuted`, `C81_soname_alone_refuted`, `C81_one_part_refuted`, `C81_directory_refuted`, `C81_yes_refuted`, `C81_module_subdirectory_refuted` |
| C82 | Aliases collect what they are given | AliModel: Environment.Alias, AddPreAction, AddPostAction and the multi builder as steps on the state of one alias; children_are_up_to_date over trees | AliSpec: FirstSeen, given_*, Runs; induction over histories (from the end), over trees | AliProps, AliProps2: `C82a_sources`, `C82b_actions`, `C82c_no_actions`, `C82d_seen`, `C82e_when`, `C82f_signature`, `C82_case`, `C82_environment_refuted`, `C82_preaction_refuted`, `C82_default_refuted`, `C82_twice_refuted`, `C82_changed_source_refuted`, `C82_values_refuted` |
| C83 | Dependence on Value nodes is dependence on their texts | ValModel: ValueWithMemo, Value.write, read, build, get_csig, and the comparison of signatures in changed; the hash of CPython integers | ValSpec: Faithful, Last; induction over sequences of calls (invariant: the memo leads to nodes with the same key) and over histories | ValProps, ValProps2: `C83a_rebuilt`, `C83b_same`, `C83c_read`, `C83d_kids`, `C83_case`, `C83_case_read`, `C83_hash_refuted`, `C83_built_refuted`, `C83_false_refuted`, `C83_separation_refuted` |
| C84 | The dependency trees that --tree prints show the dependencies | TreModel: print_tree and render_tree as recursion with fuel over a graph given by functions, the text of each line as code points | TreSpec: Shows (a drawing shows a tree), Unfolds, Reach; induction over the recursion with the visited names as invariant; uniqueness of the tree of a drawing by mutual induction; measure: names not yet visited | TreProps, TreProps2, TreProps3, TreProps4: `C84a_whole`, `C84b_ends`, `C84c_pruned`, `C84d_ends`, `C84e_determines`, `C84f_children`, `C84_case`, `C84_case_hypotheses`, `C84_case_cycle`, `C84_same_name_refuted`, `C84_brackets_refuted`, `C84_derived_refuted`, `C84_twice_refuted` |
| C85 | Which warnings are shown is decided by the last directive | WrnModel: process_warn_strings with str.title and the replacements, the list of enabled classes, opt_warn, set_option and the two times Main processes them; the classes of Warnings.py | WrnSpec: Decides, Camel, Names, Says; induction over directives and calls (processing a list again changes nothing), over words | WrnProps, WrnProps2, WrnProps3: `C85a_last`, `C85b_nothing`, `C85c_meaning`, `C85d_commas`, `C85e_mandatory`, `C85_case`, `C85_case_names`, `C85_mandatory_refuted`, `C85_command_line_refuted`, `C85_set_commas_refuted`, `C85_types_refuted` |
| C86 | The special attributes of targets and sources are the parts of their paths | AttModel: get_path over the path elements, _abspath, os.path.relpath, Dir.rel_path, srcdir_list and srcnode, splitext, the special attributes of EntryProxy; nodes are places | AttSpec: Leads (walking a text), HasSuffix, Linked, Above; induction over places, the two cases below and outside the current directory | AttProps, AttProps2, AttProps3: `C86a_path`, `C86a_abspath`, `C86a_relpath`, `C86a_rel_path`, `C86b_path`, `C86b_abspath`, `C86b_relpath`, `C86ab_attributes`, `C86c_parts`, `C86c_windows`, `C86d_srcpath`, `C86e_combined`, `C86e_each`, `C86_case`, `C86_nested_case`, `C86_outside_refuted`, `C86_file_suffix_refuted`, `C86_splitext_refuted`, `C86_cwd_refuted` |
| C87 | FindSourceFiles returns the files everything is made from | FnsModel: build_source with the entries that disambiguate() turns into directories, final_source, the set | FnsSpec: SourceOf, Origin, Wanted, Ends (accessibility); induction over the depth of the calls and over accessibility | FnsProps, FnsProps2: `C87a_sound`, `C87b_complete`, `C87c_returns`, `C87_case`, `C87_cycle_case`, `C87_leaves_refuted`, `C87_entry_refuted` |
| C88 | Progress() shows what it is given every interval nodes | PrgModel: Progressor with its counter and the previous text, erase_previous, spinner, string and replace_string | PrgSpec: a terminal line with a cursor, Looks, Shows (with Replaced of TxtSpec); induction over the nodes, Gauss lemma and counting for the rotation | PrgProps, PrgProps2: `C88a_interval`, `C88b_overwrite`, `C88c_rotation`, `C88_case`, `C88_leftover_case`, `C88_overwrite_refuted`, `C88_rotation_refuted` |
| C89 | Where a run of scons starts | DstModel: _create_path, _SConstruct_exists, the climbing loop and the change of directory of _main | DstSpec: Led (the -C options one after the other), Nearest, Nowhere, FirstThere, on walk of NameProps2; induction over the directories above | DstProps, DstProps2: `C89a_directories`, `C89b_directory`, `C89c_climb`, `C89d_none`, `C89e_fallback`, `C89_case`, `C89_typo_refuted`, `C89_elsewhere_refuted`, `C89_repository_refuted`, `C89_absolute_file` |
| C90 | Package and path variables | PkvModel: the converters and validators of PackageVariable and PathVariable, as variables of VarModel | PkvSpec: Enabling, Disabling, PackageValue, Acceptable; on C54_update_precedence and C54e_validated, Update computed for the converse | PkvProps, PkvProps2: `C90a_package`, `C90b_accepts`, `C90c_save`, `C90d_path`, `C90e_path_accepts`, `C90_case`, `C90_default_case_refuted`, `C90_default_false_refuted` |
| C91 | Split, Flatten and command-line variables | SplModel: str.split as a scan, Split, do_flatten, flatten, CLVar with addition from both sides and its text | SplSpec: Splits (words with white space around), Leaves; induction over strings and over nested values | SplProps, SplProps2: `C91a_split`, `C91b_split_others`, `C91c_flatten`, `C91d_add`, `C91e_text`, `C91_case`, `C91_text_refuted` |

## Restrictions and notes per property

* C01 (proved): arbitrary, changing graphs; model of Taskmaster in TMModel.v
* C02 (proved): general graphs for ordinary nodes; for side-effect nodes the graph must be fixed
* C03 (proved): fixed graph, no exception swallowed by --ignore-errors
* C05 (proved): fixed graph; requested target must not itself be a declared side effect (refuted otherwise: finding)
* C06 (proved): finite graph, cycles allowed; bound on handed-out tasks proved without side effects
* C07 (proved): side effects and --keep-going included; exception in the statement shown by C07_keep_going_refuted (finding); fixed graph
* C08 (proved): exception in the statement shown by C08_keep_going_refuted (finding); fixed graph
* C09 (proved): NewParallel, and LegacyParallel (C09c)
* C10 (proved): NewParallel and LegacyParallel, with signals; exceptions escaping from the taskmaster callbacks are not modelled
* C11 (proved): NewParallel and LegacyParallel, with signals; C11d/C11e exclude tasks whose preparation fails under --ignore-errors; finite graph; no spurious wake-ups, no escaping exceptions
* C12 (proved): proved unless a node is both Depends() and Ignore() of the same target, in which case the target is never up to date (finding: Node.get_binfo records signatures of ignored explicit dependencies)
* C13 (proved): content decider, and MD5-timestamp decider
* C14 (proved): proved unless a node is both Depends() and Ignore() (refuted: finding)
* C15 (proved): disk state of ignored nodes is irrelevant in all cases; the recorded information differs when an explicit dependency is ignored (refuted: finding)
* C16 (proved): process death at any file-system step (page cache survives; power failure not modelled); pickle abstracted by dec(enc d)=d and non-empty dumps
* C17 (proved): proved when every deletion is followed by an assignment or explicit sync; refuted otherwise (finding: _Dblite.__delitem__ does not set _needs_sync)
* C18 (proved): old, new or no entries, never a mixture; 'old or new' is refuted (finding: the old file is unlinked before the rename)
* C19 (proved): any interleaving of pushing/fetching/crashing/cleaning processes at file-system step granularity; process death, not power failure
* C20 (proved): deletion of already fetched targets is assumed to succeed (a failing unlink is only warned about in the code); a retrieval dying half-way may leave a partial target, which is then rebuilt
* C21 (proved): proved for target paths without comma-space; refuted otherwise (finding: hash_collect joins with comma-space without escaping)
* C22 (proved): scons_subst and scons_subst_list
* C23 (proved): proved for well-formed strings; refuted next to stray $, before parentheses in command mode, for list arguments (findings)
* C24 (proved): proved when callables do not return callables endlessly and ${..} expressions with a dot are attribute accesses; refuted for general dotted expressions (finding)
* C25 (proved): balanced $( $); nested ones are wrong in scons_subst_list (finding)
* C26 (proved): proved unless Append/Prepend changes in place an object inherited from the parent (refuted: documented in the docstring of OverrideEnvironment)
* C27 (proved): lookup and membership proved; dictionary view proved when deleted variables are re-assigned only by item assignment and not deleted twice; substitution proved without deletions (refuted otherwise: findings)
* C28 (proved): CPPDEFINES and nested containers not modelled
* C29 (proved): exact result proved in all four modes; refuted parts: PrependPath(delete_existing=False) reverses the caller's list and keeps the last of equal new elements, AppendPath(delete_existing=False) keeps duplicates among the old ones (findings). One-character separator; no tuples or Dir nodes
* C30 (proved): UniqueList proved for operations at the ends; refuted for a constructor argument with duplicates and for positional operations after unread appends (findings); unique needs hashable, totally ordered or merely comparable elements
* C31 (proved): POSIX; string arguments; the exceptions in the statement are proved to be real (findings)
* C32 (proved): any two nodes, not only directories; the exception in the statement is proved to be real (finding)
* C33 (proved): hash algorithm abstract: update is incremental; chunk size 0 gives a constant signature (Main.py rejects it)
* C34 (proved): the exception in the statement is proved to be real (finding)
* C35 (proved): the exceptions in the statement are proved to be real (finding: descriptor 0)
* C36 (proved): the exceptions in the statement are proved to be real (findings)
* C37 (proved): the exception in the statement is proved to be real (finding)
* C38 (proved): on directive tuples; the exceptions in the statement are proved to be real (findings)
* C39 (proved): duplicating VariantDirs not modelled; the exceptions in the statement are proved to be real (findings)
* C40 (proved): the exception in the statement is proved to be real
* C41 (proved): proved for histories without SIGKILL and with trustworthy timestamps; both exceptions are refuted by concrete histories (findings)
* C42 (proved): no hash collisions, honest pushers, target paths without comma-space
* C43 (proved): strings and flat lists; CPPDEFINES, dictionaries, CLVar not modelled
* C44 (proved): the exceptions in the statement are proved to be real (findings)
* C45 (proved): on syntax trees, i.e. fully parenthesised text; the exceptions in the statement are proved to be real (findings)
* C46 (proved): the exception in the statement is proved to be real (finding); timestamp-content decider is C01/C02
* C47 (proved): substitution abstract; the exceptions in the statement are proved to be real (findings)
* C48 (proved): the exceptions in the statement are proved to be real (findings)
* C49 (proved): the exception in the statement is proved to be real
* C50 (proved): tasks' removals taken one after the other (any order); the exceptions in the statement are proved to be real (findings, two of them contradict the documentation)
* C51 (proved): shell grammar restricted to words and double quotes (anything else counts as acted upon by the shell); Windows quoting not modelled; the exceptions in the statement are proved to be real (finding: backquote)
* C52 (proved): BUILDERS, tools and attributes other than variables not modelled; the exceptions in the statement are proved to be real (finding: contradicts the docstring)
* C53 (proved): NewParallel, and LegacyParallel (C53g); the handler runs between two actions of the model (in particular not between the test of interrupted and the call of execute(), nor in the middle of a taskmaster request); the exception in the statement is proved to be real (finding)
* C54 (proved): substitution abstract (values without dollar sign); reading the file is taken to be the assignments in it; the exceptions in the statement are proved to be real (findings)
* C55 (proved): on target and source lists as they are after suffixes and emitters; the exceptions in the statement are proved to be real (findings)
* C56 (proved): POSIX names; no source is lost if emitters only add files and each source builder makes files its parent takes; the exceptions in the statement are proved to be real (findings)
* C57 (proved): directories, permissions, times and repositories not modelled; faithfulness of copies for sources that are regular files or absent; the exceptions in the statement are proved to be real (findings)
* C58 (proved): the output of a !command is a parameter; substitution is abstract; the table in FlagSpec is the documented one plus the undocumented entries, marked as such; C58i and C58j for variables that hold lists or are absent; the exceptions in the statement are proved to be real (findings)
* C59 (proved): values are None, strings, numbers, lists, tuples, dictionaries with string keys, deques; the exceptions in the statement are proved to be real (findings)
* C60 (proved): scripts are programs of a small statement language; no variant_dir, repositories or user functions shared between scripts; values opaque; the exceptions in the statement are proved to be real (findings)
* C61 (proved): types of options are functions from words to values; messages not modelled; options of the project use the actions store, store_const (and true, false), append, append_const, count, have names and variables of their own; the exceptions in the statement are proved to be real (findings)
* C62 (proved): what the arguments of Default name is looked up already; interactive mode not modelled; the exceptions in the statement are proved to be real (findings)
* C63 (proved): the directories searched for a directory are given; names on disk do not begin with #; the same name is not a file in one directory searched and a directory in another; the exceptions in the statement are proved to be real (findings)
* C64 (proved): one target per command; what a command does depends on the command and the contents of its children; hash injective; signatures recorded for files of the project are current and the files of the configure directory are not touched by others (both exceptions proved to be real, findings)
* C65 (proved): one process; decision by content; no variant directories, repositories, caches and side effects; a file that is neither a source nor built is an error; what a command does depends on the command and the contents of the children; the conditions in the statement are proved to be needed (findings)
* C66 (proved): same model of nodes and decision as C65 (content decider, no AlwaysBuild, caches, variant directories, repositories, side effects); theorems about runs that come to their end; that the list differs from a real run is proved by two cases (findings)
* C67 (proved): decision by content; hash injective; a command that fails leaves no target; files that are built are not edited by hand (they may be removed); no variant directories, repositories, caches, side effects, Requires and Ignore; the conditions in the statement are proved to be needed, and the last sentence is a finding
* C68 (proved): what is in a directory (entries, disk, variant directories, repositories) is given; POSIX names; the files do not change while find_file remembers; the exceptions in the statement are proved to be real (findings)
* C69 (proved): names without $; LIBS a string or a flat list; POSIX; the linker is specified in LibSpec (first directory with any library of that name); C69b for names without slash; the exceptions in the statement are proved (findings)
* C70 (proved): file nodes; on top of the model of the decision of C12-C15 and C46; the text of the message is not modelled; the two conditions in the statement are proved to be needed (findings)
* C71 (proved): tasks one after another in any order; commands are functions of the contents of the dependencies; copying always succeeds (crashes: C19; several targets: C20; keys: C21); --cache-debug is not modelled
* C72 (proved): POSIX; the user may change the files; names lead to the same files throughout; only the letters r, w, x (others are refused)
* C73 (proved): POSIX; files have contents and modes only; permissions are not checked; the parent directory of the destination exists; no hard links; .. in link texts is resolved when the link is read; shutil.copytree and scons_copytree are one function
* C74 (proved): 8-bit characters; LINESEPARATOR as a Value node is not modelled; dictionaries whose text is shorter than a million characters; the sources are taken to be the same, their own signatures are C01
* C75 (proved): the answers nodes remember about the disk are taken to be right; POSIX; permissions always suffice; copies in variant directories are C57
* C76 (proved): 8-bit characters; names stand for nodes (no dollar signs, no aliases); the name of the file is already expanded
* C77 (proved): the expansion of the command is given (C13); what tempfile.mkstemp promises (a new name) is a hypothesis, shown satisfiable; TEMPFILEDIR exists; the extra backslashes for SHELL=sh are not modelled; (c) is for histories in which a command of a target always expands to the same words
* C78 (proved): POSIX; executable means the execute bit of the owner, as in the code; a link is followed once
* C79 (proved): 8-bit characters; find_file is a parameter (its subject is C68); the regular expressions are written out as functions and proved to accept exactly the statements of the specification
* C80 (proved): paths are relative to the source directory; what a path is after disambiguate() is a parameter; the hash is a parameter without collisions whose digests have no blanks and no newlines, shown to exist
* C81 (proved): GNU conventions; values of variables are after substitution; one target; a path is a directory and a name, links name things in their own directory; equality of directories is a parameter, shown to exist
* C82 (proved): nodes, actions and environments are abstract, with an equality of nodes, shown to exist; the calls are for one alias
* C83 (proved): str(), hash() and truth of values are abstract functions; (d) for signatures of one length
* C84 (proved): names are clean (one line, not beginning with a bracket or a line-drawing character) in (e), different nodes have different names in the last part of (c) and of (e); the status tags are an abstract text of fixed length
* C85 (proved): the order that holds is stated; that it is not the documented one for SetOption and for mandatory warnings is shown; ASCII
* C86 (proved): POSIX; one node per place (C26); rsrcpath and rsrcdir with repositories are not covered
* C87 (proved): what is in a directory is its in-memory entries (C80); the order of the result is that of a Python set
* C88 (proved): a terminal that does not wrap lines; nothing else written to it in between; interval=0 and empty lists are errors and not modelled
* C89 (proved): POSIX, no symbolic links; paths are followed as in C56; -h without an SConstruct and -f - are not modelled; (d) from the current directory without -f and -Y
* C90 (proved): on the model of Variables.Update and Save of C54; texts without dollar signs; the undocumented searchfunc and PathIsDirCreate are not modelled; (c) for a default without white space that is a path or a word in lower case
* C91 (proved): which characters are white space is a parameter; lists are finite trees (no list contains itself); env.Split, which expands first, is not modelled

## Modelled and not modelled

The header of each model file, verbatim:

**ActionModel.v**: Model of actions and executors: SCons/Action.py (Action, _do_create_action, _do_create_list_action, _actionAppend, get_contents, get_presig, get_varlist, CommandAction.process/execute, FunctionAction, CommandGeneratorAction, LazyAction, ListAction) and SCons/Executor.py (execute_action_list, get_contents, add_pre_action, add_post_action, batches). No proofs. Characters are numbers. The construction environment is the record [senv]: how it expands strings (Subst.py is modelled in SubstModel.v) is left arbitrary. Not modelled: printing (show, presub, cmdstr, strfunction), chdir, SPAWN/SHELL/ESCAPE lookup, ENV conversion, execute=False (-n), exceptions of callables other than through their status (Errors.py convert_to_BuildError is modelled in ExitModel.v).

**AliModel.v**: Model of aliases: SCons/Environment.py Alias, AddPreAction and AddPostAction, SCons/Node/Alias.py (build, convert, get_contents), SCons/Executor.py (add_sources, Null._morph, get_action_list), the part of SCons/Builder.py _execute that multi builders use, SCons/Node/__init__.py children_are_up_to_date and add_source, SCons/Taskmaster/__init__.py make_ready_current. No proofs. One alias, and the calls made for it in the order of the scripts. Nodes, actions and environments are abstract. Not modelled: builder keywords of an Alias call and their overrides, side effects, an alias that is also a target of another builder.

**AttModel.v**: Model of the attributes of file nodes that command lines use, like ${TARGET.base}: SCons/Node/FS.py EntryProxy, Base and Dir get_path, get_abspath, get_relpath, get_path_elements, srcnode, srcdir_list, Dir.rel_path, RootDir, and SCons/Util/__init__.py splitext (NameModel.splitext). No proofs. POSIX: one root, separator /. There is one node for each place (C26), so a node is a place: the names from the root down. Not modelled: Windows drives, what str(node) itself is (_get_str: the path, or that of the source, C57), repositories (rfile; rsrcpath and rsrcdir are as srcpath and srcdir without them), memos, for_signature.

**BldModel.v**: Model of Builder calls and what they record about targets: SCons/Builder.py (_node_errors, BuilderBase._execute), SCons/Node/__init__.py (get_executor, builder_set, add_source ...), SCons/Executor.py (Executor, Null), SCons/Environment.py (AddPreAction, AddPostAction, SideEffect). No proofs. Target and source lists are the lists of nodes after suffixes and emitters have been applied (Builder.py 496-557, see also SrcModel.v); the temporary builder set around the emitter call (529-548) is not modelled. Warnings and messages are not modelled. Builders are equal if all their attributes are (Builder.py 459); b_id stands for the attributes that are not modelled. Not modelled: set_specific_source (tests of SConf only), chdir, target_peers.

**CacheModel.v**: Model of SCons/CacheDir.py (push and retrieve as interleaved file-system programs), Task.execute (Taskmaster/__init__.py 216-263), the cache key (Node/FS.py 3647-3722) and content hashing (Util/hashes.py, Node/FS.py 2775-2787, 3248-3279). No proofs. C19 part. Shared state of all processes using a cache directory: the directory entries (one per signature), the contents of inodes, and where each process is. POSIX semantics: rename replaces an entry atomically, an open file keeps referring to its inode. A process may die, fail with OSError, or be slow at any point, and anybody may remove entries. Symbolic links, time stamps and modes are omitted; the config file is not part of this model.

**CfgModel.v**: Model of configure tests: SCons/SConf.py (SConfBuildTask.collect_node_states 251-288, execute 290-357, failed 232-247; SConfBase.BuildNodes 524-592, TryBuild 606-679, TryRun 714-741; force_build 428-446) with what they use of SCons/Taskmaster/__init__.py (Task.prepare 160-204, make_ready_current 387-432), SCons/Node/FS.py (File.is_up_to_date 3553-3585, File.prepare 3161-3176, get_csig 3248-3278, get_max_drift_csig 3222-3246) and SCons/Node/__init__.py (Node.changed: number of children, their signatures in order, action signature). No proofs. Simplified: one target per step; contents, signatures, commands and nodes are numbers; a step is a file to be made by a command from its children (sources and what the scanner finds, in order); what a command does depends on the command and on the contents of the children only; no repositories and no variant directories; messages and the log are not modelled; a Value is a file that is always there.

**ChmModel.v**: Model of the Chmod() action: SCons/Defaults.py 178-245 (permission_dic, chmod_func). No proofs. Simplified: POSIX; the user may change every file; a name in the list leads to the same file throughout (`at_`, which follows symbolic links, as os.stat and os.chmod do); os.chmod takes the twelve low bits of its argument. invalidate_node_memos (203) has no effect on files. str.strip() takes the six ASCII white-space characters away.

**CleanModel.v**: Model of "scons -c": Script/Main.py CleanTask (363-442), Environment.py Clean / NoClean (2556-2573, 2669-2676). Not modelled: messages' texts beyond which path they name; that directory components of a path may be symbolic links; memoised stat results (a target already removed by an earlier step would give one more "could not remove" line).

**CloneModel.v**: Model of Environment.Clone (Environment.py 1768-1835, Base.Clone: the copy of _dict and BUILDERS), Util/__init__.py semi_deepcopy (526-558), Environment.Replace (2265-2281) / copy_non_reserved_keywords (158-175) as far as copying is concerned. Python objects live in a heap; a reference is an index. Not modelled: attributes of the environment object other than its dictionary of variables (copy.copy shares them), tools, variables=, parse_flags=, the substitution of $-references to the old value in keyword arguments (scons_subst_once), methods added by AddMethod.

**CondModel.v**: Model of the evaluation of #if / #elif conditions: SCons/cpp.py, CPP_to_Python_Ops_Dict 118-125, CPP_to_Python_Eval_List 160-167, CPP_to_Python 178-188, eval_expression 408-420. No proofs. The code rewrites the text of the condition into Python text and gives it to eval(). Here a condition is a syntax tree, that is, its text has parentheses around every application of an operator, so that C and Python read it the same way (without them they do not: `not' binds weaker in Python than `!' in C, comparisons chain, `defined X' becomes a comparison). Macros stand for integers; those with other values are not modelled.

**CopModel.v**: Model of the options of a derived-file cache: SCons/CacheDir.py (47-120 and 322-398: cache_enabled, cache_readonly, cache_force, cache_show, CacheRetrieveFunc, CachePushFunc, is_enabled, cachepath, retrieve, push, push_if_forced), SCons/Node/FS.py (3001-3034 push_to_cache, retrieve_from_cache, visited; 3160-3176 prepare; 3647-3722 get_cachedir_csig, get_cachedir_bsig), SCons/Taskmaster/__init__.py (216-263 Task.execute, 281-310 executed_with_callbacks, 387-432), SCons/Script/Main.py (1234-1248), SCons/Environment.py (1481-1502 get_CacheDir, 2536-2554 CacheDir, 2675-2684 NoCache) and SCons/Action.py (667-760). No proofs. Simplifications: the tasks are given in the order in which the taskmaster takes them, and are done one after another; all the targets of a task have the same children; a content signature is the content; the signature of the action is part of the function key; a record in .sconsign is the list of the contents of the children; copying to and from the cache succeeds (C19 is about crashes); links, modes, time stamps and the counters of --cache-debug are omitted; a source that does not exist is given to the command like any other. Other processes may change the cache directory between two tasks.

**CppModel.v**: Model of conditional include scanning: SCons/cpp.py, class PreProcessor (_process_tuples 317-331, save/restore 361-376, start_handling_includes 448-463, stop_handling_includes 465-479, _do_if_else_condition 485-499, do_ifdef .. do_include 501-602, find_include_file 428-440, resolve_include 624-656) and DumbPreProcessor (664-681). No proofs. A file is the list of its directive tuples (tupleize, 332-359); the regular expressions that make the tuples are not modelled except for one finding in CppProps. Macro names, include names, files, and the texts of conditions and macro bodies are numbers; what a condition or a macro body evaluates to in a namespace is a parameter (eval_expression 408-420, eval_constant_expression 389-406). current_file (only used in messages) is not kept; function-like macros in #include lines, #import (do_import does nothing) and the `all' option are not modelled. #include_next is #include (604-620).

**CscModel.v**: Model of the C scanner: SCons/Scanner/C.py (CScanner 219-240: the regular expression), SCons/Scanner/__init__.py (Classic.find_include_names 364-365, Classic.scan 367-401, ClassicCPP.find_include 412-421, sort_key 424-425), SCons/Node/FS.py (FileFinder.filedir_lookup 3738-3774, find_file 3783-3831). No proofs. Simplified: a text is a list of characters; what is in a directory (Dir.entries, dir_on_disk, srcdir_find_file with variant directories and repositories: C39, C57) is given; POSIX paths, _my_normcase is the identity; warnings for files not found are not modelled.

**DbModel.v**: Model of SCons/dblite.py (class _Dblite) and of the file writers of SCons/SConsign.py. No proofs. Files are byte strings under names; a save is a sequence of file-system steps, and a process that dies leaves the effect of a prefix of that sequence (the kernel keeps what was written; power failures are not modelled). A dictionary is an association list. pickle is an abstract codec: what is assumed of it is [codec_ok] in DbSpec.v. Not modelled: file ownership and modes, KEEP_ALL_FILES, other dbm modules.

**DecModel.v**: Model of the rebuild decision: SCons/Node/__init__.py (get_binfo, children, changed) and SCons/Node/FS.py (File.get_csig, get_max_drift_csig, visited, changed_*, is_up_to_date). No proofs. Nodes, signatures (hash strings) and paths are natural numbers; signature 0 is the empty string (a false value in Python). A FileNodeInfo object is the record [ninfo]; a missing attribute is None. The ninfo objects of the run are the table [st : node -> ninfo]; a stored build info refers to these objects, and its signatures are read from the table when the database is written (SConsign.store_info keeps references, DB.write pickles at the end of the run). Not modelled: --implicit-cache, Alias/Value/Dir nodes, Windows path separators, the memo tables (_memo), whose entries are functions of the modelled state within one run.

**DrsModel.v**: Directories as sources: SCons/Scanner/Dir.py (only_dirs 27-29, do_not_scan and skip_entry_list 48-93, scan_on_disk 95-113, scan_in_memory 115-132), Node.get_implicit_deps, SCons/Node/__init__.py 987-1020, get_contents_dir 210-216, Dir.get_csig, SCons/Node/FS.py 1958-1967. Simplifications: nodes are named by their path below the directory that is the source; [listing] is listdir (None: OSError), [known] the names among a directory's in-memory entries (node.entries, a dict), [isdir] says of a path whether it is a directory after disambiguate(); the tree does not change while it is scanned. No other scanner is selected for a directory than the one given.

**DstModel.v**: Model of where a run of scons starts: SCons/Script/Main.py _create_path (778-785), _SConstruct_exists (693-719) and the part of _main that handles -C, -u, -D, -U, -f and -Y (982-1033). No proofs. POSIX; no symbolic links, so that os.path.abspath, os.chdir and os.path.isfile all follow a path as NameProps2.walk does (C56); a directory is the list of the names down to it, the innermost first. Not modelled: -h without an SConstruct, -f - (standard input; the dash is a name here), what is done with target_top later (C62).

**EnvModel.v**: Model of construction environments as dictionaries: SCons/Environment.py, SubstitutionEnvironment (610-690), Base.Append, Prepend, AppendUnique, PrependUnique, Replace (1578-1767, 2114-2281) and OverrideEnvironment (3013-3239). No proofs. Values are strings, None and references to mutable objects (lists and dictionaries) on a heap, so that sharing between environments and changes in place are visible. Simplifications: the elements of lists and dictionaries are strings or None (an operation that would nest one container in another is treated as an exception); the variables BUILDERS, SCANNERS (special-cased by __setitem__) and CPPDEFINES (special-cased by Append etc.) and the scanner map are not modelled; keyword arguments are one variable at a time. An exception is the result None, the environments being unchanged.

**ExitModel.v**: Model of SCons/exitfuncs.py: register (45-52), _run_exitfuncs (32-42). No proofs. A registered function is a pair of a serial number (only for the statements; the code stores (func, targs, kargs)) and its code. What a call does - which functions it registers, and whether it raises - is given by an arbitrary function `body` of the code and of all that happened before.

**FlagModel.v**: Model of ParseFlags, MergeFlags and the handling of CPPDEFINES: SCons/Environment.py (_add_cppdefines 222-418, ParseFlags 1005-1203, MergeFlags 1205-1283, the CPPDEFINES branch of Append/Prepend/AppendUnique/PrependUnique 1612-1615, 1733-1736, 2120-2123, 2230-2233), SCons/Util/__init__.py (Split, CLVar 850-918), SCons/Defaults.py (processDefines 553-622) and the part of Python's shlex.split they use (posix mode, no comments). No proofs. A string is a list of characters. Names of files are not looked up: fs.File(name) is PFile name, and its errors are not modelled. The command run for an argument beginning with ! is a parameter. Comparison of values is structural (Python also has 1 == True, dictionaries equal up to order, CLVar equal to list).

**FnsModel.v**: Model of FindSourceFiles: SCons/Environment.py 2979-3002, with Entry.disambiguate (SCons/Node/FS.py 1036-1056). No proofs. A node is abstract; its class, builder, sources and all_children() (sources, depends and, for a directory, the nodes in it: C80) are given. Not modelled: how a name becomes the node to start from (C26), the order in which a Python set gives its elements (the order of the result is not specified).

**FsModel.v**: Model of file-system node lookup: SCons/Node/FS.py, needs_normpath_check (190-228), FS._lookup (1334-1468), RootDir._lookup_abs (2472-2512), must_be_same (660-668, 1115-1121, 2467-2470), Dir.rel_path (1802-1852), Base.get_path (838-854), get_labspath (880-882, 2013-2015, 2029-2030, 2520-2521). No proofs. POSIX only: no drives (do_splitdrive is false), names are case-sensitive (_my_normcase is the identity) and the separator is '/'. A node is a number, its index in the list of created nodes; the same number is the same Python object. Only the attributes needed here are kept: name, dir and the class. Not modelled: arguments that are already nodes, entries of directories, variant directories and repositories (see RepoModel), memoisation of rel_path (the tree above a node never changes).

**FtnModel.v**: Fortran sources: F90Scanner.scan and the regular expressions of FortranScan, SCons/Scanner/Fortran.py 66-115 and 195-313; _fortranEmitter, SCons/Tool/FortranCommon.py 58-82. Simplifications: 8-bit characters (white space and letters are those of ASCII); how files are found (find_file, the subject of C68) is a parameter; the suffix of module files is given, and not empty or not does not matter; sorted(nodes) compares names, all different.

**GlobModel.v**: Model of Glob: SCons/Node/FS.py (Dir.glob 2224-2285, Dir._glob1 2289-2352, File._glob1 990-991, Entry._glob1 1146-1147, Entry.disambiguate 1037-1081, has_glob_magic 1609-1612, RootDir._lookup_abs 2472-2512), SCons/Environment.py Glob 2765-2774 after substitution; and, of the standard library, fnmatch.translate and os.path.split, join. No proofs. Simplified: POSIX names; the directories searched for a directory (get_all_rdirs of itself and of its source directories) are given and exist as nodes; the string of a node does not change during the call; a set is iterated in any order (set_order); a class of characters that begins with a reversed range followed by ! is not modelled.

**ImcModel.v**: Model of --implicit-cache, --implicit-deps-changed and --implicit-deps-unchanged: SCons/Node/__init__.py (scan 1082-1131, add_to_implicit 1071-1076, _add_child 1340-1350, _children_get 1368-1402, changed 1471-1526, built 779-814, clear 869-887, get_binfo 1186-1222, prepare 732-750), SCons/Node/FS.py (get_stored_implicit 2957-2961, FileBuildInfo.prepare_dependencies 2639-2666, is_up_to_date 3553-3582, visited 3031-3052, find_file 3783-3850, missing), SCons/Executor.py (get_all_children, prepare, scan 473-501), SCons/SConsign.py (store_info 217-221), SCons/Taskmaster/__init__.py (_find_next_ready_node 830-1010, make_ready_current 387-432). No proofs. Simplified: contents, signatures, commands and nodes are numbers; tasks are taken in any order a scheduler might choose (one step of the relation below prepares and runs one task, or looks at the children of a node); what a command does depends on the command and the contents of the dependencies; decision by content, no timestamps; no variant directories and repositories, no cache directory, no side effects, Requires and Ignore.

**IncrModel.v**: Model of a sequence of SCons runs (content decider) interleaved with edits by the user: what is on disk, and what is in the signature database. Uses the decision functions of DecModel.v. No proofs. One run processes a list of items in an order chosen by the build engine (C01-C03 say what orders are possible). For each target: Task.make_ready_current (Taskmaster/__init__.py 387-430), then, if out of date, the action (Task.execute 216-263), File.built (FS.py 3287-3309, Node/__init__.py 779-814) and File.visited (FS.py 3031-3052). At the end of the run SConsign.write merges the node infos (SConsign.py 215-232) and saves the database. Actions are functions of the action signature and of the contents of the dependencies. The clock advances with every edit and every run; a file written during a run gets the time of the run.

**InsModel.v**: Model of copying, deleting and installing: SCons/Defaults.py (copy_func 252-310, delete_func 321-342), SCons/Tool/install.py (scons_copytree 53-146, copyFunc 151-175), and of the parts of Python's shutil (copyfile, copystat, copy2, copytree, rmtree) and of the file system they use. No proofs. Simplified: POSIX; names are numbers and a path is the list of names from the root; what a link text means, seen from the directory the link is in, is again a path from the root (`goto`); a file has contents and a mode, no times, owners or hard links; every file may be read and written; the parent directory of the destination exists (SCons makes it before it builds a target: Node/FS.py File.prepare, _createDir), so os.makedirs makes one directory; no named pipes; no `ignore` function and no ignore_dangling_symlinks (nothing in SCons passes them). str() of nodes, invalidate_node_memos (275, 327) and the texts of errors are left out. shutil.copytree and scons_copytree differ only in the type of exceptions and are one function here.

**IntModel.v**: Model of the interactive mode: SCons/Script/Interactive.py (do_build 145-247) with what it uses of SCons/Script/Main.py (_build_targets: one run of the taskmaster), SCons/Taskmaster/__init__.py (_find_next_ready_node 830-1010, make_ready_current 387-432, executed_with_callbacks 285-312, fail_stop), SCons/Node/__init__.py (built 779-814, clear 869-887, scan 1082-1131, children 1368-1437, Walker 1740-1796), SCons/Node/FS.py (visited 3031-3052, get_csig, File.release_target_info 3078: nothing in interactive mode) and SCons/Executor.py (get_all_children, get_all_prerequisites, scan 473-494). No proofs. Simplified: contents, signatures, commands and nodes are numbers; tasks are taken in any order a scheduler might choose (one step of the relation below prepares and runs one task); an include names one node; what a command does depends on the command and the contents of the children; decision by content; no variant directories and repositories, no cache, no side effects; a node is not both ignored and a dependency.

**JobModel.v**: Model of SCons/Taskmaster/Job.py, class NewParallel (lines 435-759): the leader/follower parallel scheduler, driving the Taskmaster model of TMModel.v. No proofs. A thread is a program counter; one label = one atomic action of one thread, chosen by an arbitrary scheduler. The code between acquiring and releasing tm_lock is split into several actions; the lock is held exactly while the program counter is Drain, Retiring or Searching. Simplifications: tracing and stack sizes are omitted; Condition.wait has no spurious wake-ups; the exceptions that _work itself does not catch (raised by the taskmaster's own callbacks) are not modelled. Whether execute() succeeds is arbitrary, and so is what failed() amounts to (fail_stop, fail_continue or, with --ignore-errors, executed()). A signal (SIGINT, SIGTERM, SIGHUP: Jobs._setup_sig_handler, 113-157) may arrive between any two actions; its handler stops the taskmaster and sets `interrupted'.

**LegacyModel.v**: Model of the old scheduler of SCons/Taskmaster/Job.py (used with --experimental=legacy_sched_deprecated): class LegacyParallel (343-432) with Worker (234-267) and ThreadPool (270-341), driving the Taskmaster model of TMModel.v. No proofs. One label = one atomic action of the main thread, of a worker, or a signal. queue.Queue is an unbounded FIFO queue whose get() blocks while it is empty. Simplifications as in JobModel.v: stack sizes are omitted, and so are exceptions that escape from the taskmaster's callbacks.

**LibModel.v**: Model of what LIBS does to a program: SCons/Defaults.py (_concat_ixes 431-466, _stripixes 469-550), SCons/PathList.py (_PathList 95-141), SCons/Scanner/Prog.py (_subst_libs 42-57, scan 59-110), and the settings of SCons/Tool/link.py 58-60, SCons/Tool/gnulink.py 55, SCons/Platform/posix.py 92-98. No proofs. Simplified: names without $, so that env.subst() does not change them; LIBS is a string or a flat list; LIBPREFIXES and LIBSUFFIXES are lists after substitution; no user-defined _concat; POSIX (os.pathsep is a colon). find_file is that of CscModel.v, adjustixes that of NameModel.v.

**LockModel.v**: Model of SCons/Util/filelock.py, FileLock (56-191): acquire_lock, release_lock, __enter__, __exit__. No proofs. Any number of FileLock objects (in any number of processes) for one file; each operating-system call (open with O_CREAT|O_EXCL, close, unlink) is one atomic step, and the steps of different objects interleave in any way; a process may be killed between any two steps. `inside` is the code between a successful acquire of a writer and its release. acquire_lock on an object that already holds the lock is not modelled.

**NameModel.v**: Model of how names of targets are made: SCons/Util/__init__.py (splitext, adjustixes, Selector), SCons/Builder.py (match_splitext, DictCmdGenerator, adjust_suffix, BuilderBase._adjustixes), SCons/Node/__init__.py (target_from_source_base), and the parts of Python's posixpath they use. POSIX only. No proofs. A string is a list of characters. Digits are the ASCII digits (str.isdigit() accepts other Unicode digits too).

**NxModel.v**: Model of scons -n and scons -q: SCons/Script/Main.py (_build_targets 1230-1250 and 1406: execute_actions, do_store_info; QuestionTask 434-450; BuildTask), SCons/Action.py (667-760: an action that is not executed returns 0), SCons/Node/__init__.py (345-350 store_info_file, 779-814 built) and SCons/Taskmaster/__init__.py (285-312, 387-432, stop). The nodes, the taskmaster's search and the decision are those of IntModel, with the same simplifications. No proofs.

**OptModel.v**: Model of command-line options: SCons/Script/SConsOptions.py (SConsValues 71-233, SConsOption 236-290, SConsOptionParser._process_long_opt 347-420, _process_short_opts 422-477, reparse_local_options 479-538, add_local_option 540-582), SCons/Script/Main.py (AddOption 527-555, GetOption 557-559, SetOption 561-563, ValidateOptions 590-612, _exec_main 1419-1423, _main 1042-1043, 1083-1094, 1174-1177, 1201) and, of the standard library, optparse.py (parse_args, _process_args, take_action, ensure_value). No proofs. Simplified: the type of an option is a function from words to values (failing: the program ends with status 2), values are opaque but for lists and numbers; an option with nargs='?' has its const converted already; messages are not modelled.

**PathListModel.v**: Model of SCons/PathList.py: _PathList.__init__ (94-118), subst_path (124-144), PathListCache._PathList_key (177-191), PathListCache.PathList (193-217); SCons/Util/__init__.py: flatten, do_flatten, flatten_sequence (453-512). No proofs. Strings are lists of character codes; an object that is neither a string nor a sequence is a number (objects compare by identity and do not support `in`). env.subst and node_conv are arbitrary functions. os.pathsep is one character.

**PathsModel.v**: Model of the list utilities of SCons/Util: PrependPath, AppendPath and AddPathIfNotExists (SCons/Util/envs.py 43-132, 154-242, 245-276), unique, uniquer_hashables and UniqueList (SCons/Util/__init__.py 1005-1075, 1108-1226). No proofs. A string is a list of characters (nat). Simplifications: the separator is one character; path elements are strings (not Dir nodes); an argument that may be a list is a list, never a tuple; os.path.normpath(os.path.normcase(x)) is an arbitrary function norm, os.path.normcase is an arbitrary function ncase, canonicalize is an arbitrary function.

**PdModel.v**: ParseDepends: SCons/Environment.py 2063-2107, with SCons/Util/__init__.py 1078-1105 (logical_lines), and Depends, Environment.py 2625-2635, SCons/Node/__init__.py (add_dependency, _add_child). Simplifications: 8-bit characters; the names of files stand for their nodes (they contain no dollar sign; aliases are omitted); the name of the file to be read is already expanded.

**PkvModel.v**: Model of SCons/Variables/PackageVariable.py and PathVariable.py, as variables for VarModel. No proofs. The file system is given by what os.path.isdir, isfile and exists say. Not modelled: the undocumented searchfunc of PackageVariable, PathVariable.PathIsDirCreate (it changes the file system), the help texts; a value that is neither a string nor a boolean is refused (lower(), or os.path.exists(), raises).

**PrepModel.v**: What is done before the command of a task is run: SCons/Taskmaster/__init__.py 160-206 (Task.prepare), SCons/Executor.py 413-421 (Executor.prepare), SCons/Node/__init__.py 728-759 (Node.prepare), 1286-1289 (missing), SCons/Node/FS.py 346-376 (UnlinkFunc, MkdirFunc), 1890-1891 (Dir.prepare), 1903-1933 (Dir._create), 2996-2999, 3145-3151 (_rmv_existing), 3161-3176 (File.prepare), SCons/Action.py 667-740 (actions are not executed under -n). Simplifications: a path is the list of its names, the last name first; the file system is a table of paths; a symbolic link is known to lead to a file, a directory or nowhere, and what is below a link to a directory is in the table too; the answers that nodes remember about the disk (File.exists, stat) are taken to be right; BuildInfo, the copying of sources to variant directories (C57) and drives are omitted; permissions always suffice.

**PrgModel.v**: Model of Progress(): SCons/Script/Main.py Progressor (129-179), Progress (183-186), BuildTask.prepare (206-209). No proofs. A node has a text, str(node). Not modelled: interval=0 and an empty list of strings (ZeroDivisionError), a negative interval, several calls of Progress() (the last one counts), buffering of the file. replace is TxtModel.replace.

**QuoteModel.v**: Model of how expanded command words reach a program: Platform/posix.py escape (43-54), subprocess_spawn (60-61), Subst.py quote_spaces (133-138), CmdStringHolder.escape (157-176), escape_list (178-189), Action.py 1093-1096, and of response files: Platform/__init__.py TempFileMunge.__call__ (206-340). Characters are numbers (code points). Not modelled: encodings, the messages printed, Windows' escape and spawn.

**RepoModel.v**: Model of the search for files in repositories and source directories: SCons/Node/FS.py (VariantDir 1503-1517, Repository 1519-1524, __clearRepositoryCache 1709-1725, link 1752-1758, getRepositories 1760-1765, get_all_rdirs 1767-1788, addRepository 1790-1794, srcdir_list 2096-2115, srcdir_duplicate 2117-2133, srcdir_find_file 2138-2178, file_on_disk 2189-2196, rentry 971-987, rfile 3587-3620, find_repo_file 3622-3642, FileFinder.find_file 3782-3826). No proofs. A directory is the list of the names that lead to it, the last one first (the root of the file system is []). The disk does not change during a search, and looking up a node in a repository adds it to the directory's entries only with the kind it has on disk, so the entries are a parameter. Only VariantDirs with duplicate=0 are modelled. Not modelled: Windows file names, the class change of an Entry node (an existing Entry counts with the kind it has on disk), attributes of the node, sub-paths in find_file's file name.

**ScanModel.v**: Model of implicit-dependency scanning: SCons/Node/__init__.py (Node.get_implicit_deps 987-1020, _get_scanner 1022-1037, add_to_implicit 1068-1073, scan 1075-1131, _add_child 1340-1350), SCons/Node/FS.py (File.get_found_includes 2966-2994), SCons/Executor.py (scan_targets, scan_sources, scan 472-501), SCons/Scanner/__init__.py (ScannerBase.recurse_nodes 180-183 and 257-263, Classic.scan 364-398). No proofs. Nodes, scanners, search paths and include names are numbers (object identities; Node and ScannerBase hash by identity). What a scanner finds in a file is a function of file, scanner and path, that is, the files do not change while they are scanned. Not modelled: disambiguate (Entry to File or Dir), scan_check, the kw argument, and a `recursive' callable that looks at more than one node at a time (recurse_nodes is a filter here; it is one for every scanner SCons ships).

**SconModel.v**: Model of how SConscript files are read: SCons/Script/SConscript.py (compute_exports 88-107, Frame 109-124, Return 131-148, handle_missing_SConscript 153-178, _SConscript 180-346, Export 523-526, Import 559-575, SConscriptChdir 624-627) and SCons/Node/FS.py (chdir 1301-1314). No proofs. A script is a list of statements: assignments, prints, conditionals, try, functions called where they are defined (with local variables), and the calls modelled. Simplified: no variant_dir, src_dir and repositories (the directory of a script exists and is read from there), the SConstruct is in the top directory, values are opaque (a change inside an object is not visible here), functions defined in one script and called from another are not modelled, and a variable of a function is looked up in its locals and then in the script's globals.

**SplModel.v**: Model of Split, CLVar and Flatten: SCons/Util/__init__.py do_flatten (453-464), flatten (467-488), Split (850-869), class CLVar (872-918). No proofs. A value is a string, a sequence (list, tuple or UserList: everything in SequenceTypes), or some other object, a number here. A character is white space for str.split() if blank says so. Not modelled: sets and dictionaries (they are other objects), recursion through a list that contains itself.

**SrcModel.v**: Model of source builders: SCons/Builder.py BuilderBase._create_nodes, _execute, _get_sdict, src_builder_sources, subst_src_suffixes, src_suffixes, add_src_builder, set_src_suffix (through CompositeBuilder.add_action). No proofs. A node is its path. env.arg2nodes() of a string is the one node with the substituted string as its path (strings that expand to lists and look-up of nodes are not modelled, see FsModel.v); the checks of _node_errors other than the one for single-source builders, executors and what is recorded in the targets are in BldModel.v. Prefixes and suffixes of a builder are strings, already substituted (a dict or a function of the sources is not modelled); so are the source suffixes. Names of source builders are already looked up in $BUILDERS. Overrides, chdir and warnings are not modelled.

**StatusModel.v**: Model of the way from actions to the exit status of scons: SCons/Action.py (CommandAction.execute 1043-1104, FunctionAction.execute 1431-1460, _ActionAction.__call__ 655-738, ListAction.__call__ 1507-1518, default_exitstatfunc 147), SCons/Executor.py (execute_action_list 112-131), SCons/Errors.py (convert_to_BuildError 120-216), SCons/Taskmaster/__init__.py (Task.execute 252-263), SCons/Script/Main.py (BuildTask.do_failed 245-259, BuildTask.executed 261-286, BuildTask.failed 288-343, QuestionTask 449-456, jobs_postfunc 1390-1412, _main 1218-1227). No proofs. What a command or function does is data: its result is given, and carries a label that is written to the trace when it runs. Not modelled: printing, chdir, KeyboardInterrupt inside an action, caches (see CacheModel), messages.

**SubstModel.v**: Model of SCons/Subst.py: scons_subst with StringSubber, scons_subst_list with ListSubber. No proofs. Strings are lists of ASCII characters (characters >= 128 are neither word characters nor white space here). Construction variable values are strings, None, sequences, callables and other objects (Nodes, Literals: what is observable of them is str() and for_signature()). eval() of a ${...} expression that is not a variable name, and the user's callables, are parameters of the environment. Python's recursion is modelled with fuel: running out of fuel is [Timeout] (in Python a RecursionError). Not modelled: CmdStringHolder/UserString inputs, the conv argument, the escape/quote machinery, gvars['__builtins__'] (set during the call and deleted afterwards).

**TMModel.v**: Model of SCons/Taskmaster/__init__.py : class Task (state changes) and class Taskmaster, together with the per-task protocol of the job loops in SCons/Taskmaster/Job.py. No proofs in this file. Representation. - A node is a number (node identity). [Entry.disambiguate] morphs an object in place and returns the same object, hence the identity here (SCons/Node/FS.py 1036-1078). - Python sets (waiting_parents, waiting_s_e, pending_children) are lists; every iteration over a Python set goes through the oracle [e_iter], an arbitrary reordering, because the iteration order of a Python set is unspecified. - The attribute [waiting_parents] of all nodes is one list of edges (child, parent). - The stack [candidates] has its top at the head of the list (Python: at the end). - Tracing, statistics and display hooks are omitted.

**TgtModel.v**: Model of target selection: SCons/Script/__init__.py (TargetList 186-192, _Add_Arguments 212-217, _Add_Targets 219-228, _Set_Default_Targets and _Get_Default_Targets 273-304), SCons/Script/Main.py (_main 980-1005: climbing; 1083-1094; _build_targets 1255-1327). No proofs. Simplified: a node is a directory, another file system node with the directory of the script that calls its builder (after srcnode; None if it has none), or something else (an alias, a value); what the arguments of Default name has been looked up already (arg2nodes); names are looked up as FS._lookup does (C31: the path a name denotes). BUILD_TARGETS may also be changed in place by a script (OHand). Interactive mode is not modelled.

**TmpModel.v**: Long command lines in temporary files: TempFileMunge.__call__, SCons/Platform/__init__.py 206-348, and quote_spaces, SCons/Subst.py 133-138. Simplifications: 8-bit characters; the command is given with what it expands to (env.subst_list, the subject of C13); the name the file system finds for a temporary file is a parameter, and so is the encoding; TEMPFILEDIR exists; SHELL is not "sh" or the name of the temporary file has no backslash; the message is what matters of printing, not how it is printed.

**TreModel.v**: Model of the printed dependency trees: SCons/Util/__init__.py print_tree (--tree) and render_tree with prune (--debug=includes), SCons/Script/Main.py TreePrinter, SCons/Node/__init__.py all_children. No proofs. A text is a list of code points. A node is printed under its name, str(). Files on disk, and the tags that --tree=status prints before the line (print_tree 377-392), are abstract: tags gives them for a node. The lists of dependencies are those after the build. Not modelled: more than one --tree option; an exception while printing.

**TxtModel.v**: SCons/Tool/textfile.py: Textfile and Substfile, and the signature of their action. Not modelled: LINESEPARATOR given as a Value node, the TEXTFILE_FILE_WRITE_MODE with 'b', the open() error. Characters are 8-bit here. Text is encoded by [encode] (the codec named by FILE_ENCODING), a parameter.

**ValModel.v**: Model of Value nodes: SCons/Node/Python.py (ValueWithMemo, Value.read, write, build, get_text_contents, get_csig), SCons/Node/__init__.py changed_since_last_build_python and the comparison of children in changed. No proofs. Python values are abstract: text is str(), key is hash((value, name)), None if the value cannot be hashed, truthy its truth value. A node is its number in the order of creation. Not modelled: values computed by several targets' builders, deciders set by the user.

**VarModel.v**: Model of build variables: SCons/Variables/__init__.py (class Variables: Add, Update, Save), BoolVariable.py, EnumVariable.py, ListVariable.py. No proofs. A value is a string, a boolean or a _ListVariable. A construction environment is a partial map from names to values (reserved names and the special treatment of BUILDERS and SCANNERS in Environment.__setitem__ are not modelled). env.subst() is the parameter [expand]: what it makes of a string in an environment; the properties quantify over it and assume only what they say they assume. Not modelled: a converter with a second parameter env; converters that raise TypeError; validators that change the environment; objects whose repr cannot be evaluated; the saved-variables file is taken to be the list of assignments it makes (exec), and repr() of a string or boolean evaluates to that value.

**VdirModel.v**: Variant directories (C57): VariantDir(), srcnode(), the mapping of command-line targets into the variant directories, and the on-disk duplication of source files into a variant directory with duplicate=1. Paths are lists of names, DEEPEST NAME FIRST: build/sub/x.c is ["x.c"; "sub"; "build"]. So the parent directory is the tail, and the path w below directory d is w ++ d.

**VslModel.v**: Model of versioned shared libraries and loadable modules: SCons/Tool/linkCommon/SharedLibrary.py (shlib_symlink_emitter, _soversion, _soname, _get_shlib_stem, the variables of setup_shared_lib_logic), SCons/Tool/linkCommon/LoadableModule.py (the same for modules), SCons/Tool/linkCommon/__init__.py (EmitLibSymlinks, CreateLibSymlinks, LibSymlinksActionFunction), SCons/Defaults.py (__libversionflags) and SCons/Tool/install.py (copyFuncVersionedLib, listShlibLinksToInstall, installShlibLinks). GNU linker conventions. No proofs. Texts are those of NameModel.v. A path is a directory and a name in it; how directories are called is only needed for loadable modules. Not modelled: substitution (values of the variables are given after substitution and contain no $ and no double blanks), libraries with several targets, names of links with slashes (a SONAME with a slash), file modes, the link command except for its option -soname.

**WhModel.v**: Finding programs: WhereIs, SCons/Util/__init__.py 768-799 (POSIX); Environment.WhereIs and Detect, SCons/Environment.py 2354-2400 and 1909-1920. Simplifications: 8-bit characters; names are already expanded (self.subst, the subject of C12); reject is a list of texts; stat does not fail for what isfile has found; PATHEXT is ignored, as it is on POSIX. posixpath.join, normpath and str.split are those of NameModel and PdModel. The file system: what is at an absolute path, given by its names, the last first.

**WhyModel.v**: Model of --debug=explain: SCons/Node/__init__.py (Node.explain 1637-1730), SCons/Node/FS.py (FileBuildInfo.prepare_dependencies 2639-2666), SCons/Script/Main.py (BuildTask.make_ready 354-360). No proofs. The stored information, the decision and the deciders are those of DecModel.v. Simplified: an explanation is the list of its reasons, not its text; file nodes only, so that str_to_node is a function [node_of] from strings to nodes; the third argument of a decider (repo_node) is not used.

**WrnModel.v**: Model of the warning options: SCons/Warnings.py (_enabled, warn, process_warn_strings), SCons/Script/SConsOptions.py (opt_warn 1171-1174, SConsValues.__getattr__ 103-121, set_option 217-222), SCons/Script/Main.py 942-953 and 1148. No proofs. Classes are their names. sub: issubclass; known: a class of that name is in Warnings.py. Text is ASCII. Not modelled: warnings as exceptions, what is printed.

Not modelled at all: tool modules (SCons/Tool/*), Platform beyond quoting and response files, SConf, the option parser (beyond what is listed above), the
language-specific scanners' regular expressions, printing, debugging and statistics output, Windows and Cygwin behaviour, compatibility modules.

## Findings
Each `_refuted` theorem in the table is a behaviour of the pinned code that contradicts the unrestricted property; the English
statement of the property names it as an exception.  Seen while reading, not formalised:

* `scons -c -n` prints "Removed" for targets that do not exist; `ListAction.get_varlist` counted twice in signatures (harmless).
* `Literal` containing `$$` or `$(` is altered by scons_subst; white-space compression is skipped on the `$`-free fast path.
* NewParallel: an exception escaping from a taskmaster callback leaves the state SEARCHING, other workers wait for ever.
* SConsign.DirFile.write uses `mode` unbound if stat failed and rename fails; NOFILE marker collision.
* CacheDir.copy_to_cache: `if not st | S_IWRITE` is never true.
* File.get_text_contents: the UTF-16LE BOM is checked before the UTF-32LE one.
* `_macro_conv` splits on every `=`; PrependUnique/AppendUnique of a scalar string with delete_existing=True raises TypeError.
* OverrideEnvironment: the check for reserved names is skipped; the `_gsm` memo is shared; `setdefault` on a base environment bypasses checks; get_env_bool(int(None)) raises.
* cpp.py: `#include FOO(x)` with FOO undefined raises KeyError; `#include "x"` is relative to the top file only; C23 `#elifdef` is mis-parsed; `!A == B` is parsed with Python's precedence.
* str() of a ListVariable value sorts it in place; a Builder with an emitter deletes the executor made by an earlier AddPreAction; calling a multi and batch builder twice for a target hits an assert.
* get_src_builders is memoised by id(env): a builder replaced in $BUILDERS afterwards is not noticed, and the id may be reused by another environment.
* VariantDir (C57, proved): `_hardlink_func` has the isabs test inverted, so a source that is a relative symbolic link is resolved from the current directory (wrong file linked, if there is one of that name); with -n exists() still unlinks copies without source (fs.unlink instead of the Unlink action); a Precious target, or a copy that cannot be removed, is written through a shared file into the source; VariantDir accepts two directories as variants of each other, after which exists() recurses for ever; the duplicate argument of nested variant directories depends on the order of calls.
* ParseFlags/MergeFlags (C58, proved): an empty quoted word raises IndexError; a two-word option at the end of a string or list element is silently lost and its argument becomes a library; `-std=c++..` goes to CXXFLAGS although documented otherwise; -F, -dylib_file, --param are undocumented; MergeFlags with a string as old value inserts it into the caller's list (so it leaks into the next environment merged), a tuple raises AttributeError or becomes a nested element, a deque raises TypeError.
* CPPDEFINES (C59, proved): Prepend of several macros reverses them; AppendUnique does not recognise ("FOO",1) and "FOO=1", "A=b=c" and ("A","b=c"), ("A",) and "A", nor duplicates inside the list added; the example of Environment.xml 718-731 gives -DMACRO1=MACRO2; a scalar that is not a string (int, File) is dropped without a message.
* VariantDir: a source that is a symbolic link to its own variant copy is replaced by a link to itself when linked (not formalised).
* SConscript (C60, proved): Return() in a script read from standard input (`-f -`) raises SConscriptReturn past the reader: uncaught at top level, and silently ending the caller below it; Return inside `try/except Exception` is swallowed; Return of a function's local variable fails although Export of it works; SConscriptChdir(False) in a called script leaves the process in that script's directory. Not formalised: `globals.update({__file__: old_file})` uses the value of the module's `__file__` as the key.
* Options (C61, proved): `--foo a --bar b` with two project options ends with status 2 (the argument of the held-back long option is read before it; documented as undefined); a word `-` makes reparse_local_options stop, so GetOption gives defaults for project options after it; `--foo=a -fb` gives a or b depending on whether another AddOption came first; append options with a list default (and `--debug`, `--warn`) modify the default in place, so SetOption overrides the command line; SetOption('hash_chunksize') is stored as md5_chunksize and GetOption('hash_chunksize') raises; SetOption('implicit_deps_changed'/'implicit_deps_unchanged') is read back but has no effect (Main.py 1042 is before the scripts are read). Not formalised: SetOption('duplicate') takes effect at once even if the command line gives --duplicate; the default of --hash-chunksize is in bytes but is multiplied by 1024 (Main.py 1212).
* Target selection (C62, proved): `scons -- foo` sets COMMAND_LINE_TARGETS and BUILD_TARGETS to foo but builds the Default targets (Main.py 1256 looks only at the words before `--`); `-U` drops a directory that the script of its parent names with Default (Dir.cwd is the directory itself, FS.py 1654); `-U` without any Default call stops with "No targets" where `-u` builds the directory; names that a SConstruct adds to BUILD_TARGETS mean files relative to the starting directory under -u/-D/-U. `_Remove_Target`, `_Remove_Argument` have no caller that matters to selection.
* Glob (C63, proved): the argument `source` is never used (FS.py 2289-2352), so the documented choice between variant and source nodes does not exist; `exclude` compares with fnmatch, taking the names found as patterns, so `a[1].c` cannot be excluded by `a*`; `Glob('#*.c')` looks for names that begin with # in the current directory (no directory part, 2266); `Glob('nodir/*')` makes a Dir node that `Glob('*')` then returns; an editor's file `#f.c#` makes, from the second Glob on, a node `f.c#` of a file that does not exist (selfEntry, 2321); `Glob('src/')` is an IndexError (pattern[0] of the empty string, 2337); nodes with the same string (variant_dir with duplicate=0) come in set order; VariantDir chains are not searched transitively, so the result depends on earlier Globs.
* Configure (C64, proved): BuildNodes sets max_drift to 0 (SConf.py 573), so a header that was changed after the last build counts as unchanged and the test is answered from the cache for one more run (the project's own test/Configure/conftest_source_file.py records this behaviour); collect_node_states does not look whether files exist, so after `rm -r .sconf_temp` (with .sconsign.dblite kept) the text of a test is `up to date', compiling it fails, and the failure is recorded for good; with --config=cache Task.prepare has already removed the files of a test whose sources changed, so TryRun returns (1, '') and a later --config=auto fails although nothing differs any more.
* Interactive mode (C65, proved): do_build clears the nodes found by a walk over children only. (1) Nodes named by Requires are not children: after `build prog`, a changed source of a prerequisite is not noticed by the next `build prog`. (2) The other targets of an action with several targets are not cleared: `build a`, edit the source, `build b` does nothing. (3) A file that was included by the old version of a generated header, but not by the new one, is looked at during the build and not found by the walk: its old signature is used in later builds, and another target that includes it is taken for up to date after it has changed.
* scons -n (C66, proved): after a target has been `built' under -n its signature is that of the old file, so targets made from it are compared with the old contents: when a.c has changed and a.o exists, -n lists the compilation and not the link that a real run does next; and when a generated file on disk is not the one its users were built from, -n lists the users although a real run, which makes the file as before, leaves them alone.
* --implicit-cache (C67, proved): when the stored list of implicit dependencies turns out to be outdated, Node.scan empties `implicit` without forgetting the memoized list of children; if the new scan finds nothing, the old implicit dependencies are still waited for and built. A source that no longer includes a generated header whose command now fails cannot be compiled with --implicit-cache, although it can without.
* C scanner (C68, proved): in the regular expression of the C scanner the name in quotes or angle brackets may go on over the ends of lines; a line such as `#include <old` in a comment, without its closing character, swallows the text up to the next > or ", so the next #include line is lost as a dependency. #include_next, a comment before the name and continued lines are not seen.
* LIBS (C69, proved): options and dependencies disagree for some names. LIBS=['libfoo.so'] becomes -lfoo, so the linker may take libfoo.a from an earlier directory, on which the program does not depend; foo.bar becomes -lfoo.bar but the scanner, taking .bar for the suffix, looks for libfoo.bar; '-lfoo' and, with gnulink, ':libfoo.so.1' are linked but are no dependencies; a string is cut at colons for the linker (not at all with gnulink) and at white space for the dependencies; a library called lib (liblib.a) is dropped from the command line.
* --debug=explain (C70, proved): a file that was only a source in the last run has a record without `bact`; if it is now a target without dependencies, Node.explain fails with an AttributeError and so does the build of the target, only because of --debug=explain. A target with an explicit dependency that is also ignored is rebuilt in every run, "for unknown reasons" (see C15).
* CacheDir options (C71, proved): `scons -n` removes files: when a command has several targets of which the first are in the cache and another is not (for instance because of NoCache), Task.execute unlinks the targets it has pretended to fetch, with os.unlink, not an Action, so also under -n, where nothing was fetched and the files are those of the last build. --cache-force stores a target that was changed by hand (SCons never looks at the contents of an up-to-date target), and every other user of the cache then gets it. get_CacheDir creates the cache directory and its config file under -n, --cache-readonly and --cache-disable.
* Chmod (C72, proved): with "=" chmod_func passes only the new bits to os.chmod, so a clause such as u=rw takes away all permissions of group and others, and of u=rwx,g=rx,o=rx only o=rx is left, so that the owner can no longer read the file; "+x" without a class does nothing; "u+r=" and "xyz=" are accepted and leave no permission at all; a syntax error in a later clause is found only after the earlier clauses have been applied.
* Install and Copy (C73, proved): Install of a directory never removes what is no longer in the source; it writes through symbolic links in the destination, so that files outside are overwritten; where the destination has a directory and the source a file, shutil.copy2 silently puts the file inside (dst/x/x); files inside are not made writable, which copyFunc does for single files (and promises in its doc string); copyFunc of a file onto an existing directory copies into it and then gives the directory the mode of the file. copy_func(symlinks=False) calls itself without passing symlinks on, so a link to a directory is followed but the links inside are recreated.
* Textfile and Substfile (C74, proved): LINESEPARATOR is in the varlist of the action, but SUBST_SIG strips whitespace, so that a change from a newline to CR LF, or to two newlines, is not noticed and the old file stays. SUBST_DICT given as a dictionary is put into the signature by pprint without expansion: with {'@v@': '$VERSION'} a change of VERSION is not noticed (with a list of pairs it is). pprint sorts, so the order, on which the text depends when keys interact, is not in the signature. FILE_ENCODING is not in the varlist. A value with an unbalanced $( makes the signature raise UserError though the text could be written. A string given to Textfile that is the name of an Alias becomes the Alias node, which has no get_text_contents.
* Preparation (C75, proved): Task.prepare checks the dependencies of one target after it has removed the file of the one before, so that with several targets a missing explicit dependency of the second costs the first its old file. Dir._create ignores FileExistsError, so a dangling symbolic link in place of the directory of a target is not noticed, and Dir.exists is true for a file. Executor.prepare looks at ignored sources and at those of up-to-date targets too.
* ParseDepends (C76, proved): logical_lines removes backslash-newline without putting a blank, so that "b.h\\" followed by "c.h" in the first column is the one file b.hc.h (make reads two). A line is a comment only if # is its first character. Double-colon rules and assignments with := make dependencies on ":" or "=". With only_one the number of target words is counted, so the empty rules of gcc -MP, or one target named twice, are an error.
* TempFileMunge (C77, proved): quote_spaces writes nothing for an empty argument and does not protect newlines, quotes or backslashes. subst_list(...)[0] is only the first line of the command: if it is long the other lines are never run. The memo is keyed by the first target and the unexpanded command. The length that is compared does not count the quotes of the shell. The temporary file is also made under -n.
* WhereIs (C78, proved): the result is normalized after it was tested, so with a symbolic link before ".." it can be another file, and a reject list is compared with what is not yet normalized. Only the execute bit of the owner counts, whoever runs scons. Environment.WhereIs(" ") raises IndexError from CLVar(" ")[0].
* Fortran (C79, proved): the lookahead that excludes MODULE PROCEDURE, MODULE FUNCTION and so on has no word boundary, so that a module called pure_math or functions is not seen as defined: no target for its module file, no order between its users and it, and a source that defines and uses it waits for a file nobody makes. "! x ; use old" depends on old.mod. USE & with the name in the next line is not seen.
* Directories as sources (C80, proved): get_contents_dir separates entries by newlines and does not escape names, and a file and a directory with the same signature text are not told apart. scan_on_disk gives nothing at all when listdir fails, also when targets in the directory are known. A target inside the directory it is made from depends on itself (reported as a cycle).
* Versioned libraries (C81, proved): _get_ldmodule_stem takes str(target), with its directory, so LoadableModule('mods/foo', SHLIBVERSION='1.2.3') records -soname=libmods/libfoo.so.1 and makes its links in mods/libmods. SharedLibrary('libfoo.so', SHLIBVERSION=...) builds libfoo.so with the recorded name libfoo.so.so.1. SONAME and SOVERSION are ignored without SHLIBVERSION (documented to depend on it only for the flags). Going from SHLIBVERSION 1 to 1.1 fails with OSError because the old library stands where the link is to be. copyFuncVersionedLib swallows the error of os.remove, so with a directory in place the library is put inside it and the installed links lead to the directory.
* Aliases (C82, proved): Environment.Alias with a second action makes a new executor with all actions and the environment of that call (Environment.py 2508-2518), so the first action is executed in the second environment, and what AddPreAction or AddPostAction had attached is lost. AddPreAction on an alias without sources makes an executor without environment, which stays: its action uses the default environment. Alias.get_contents joins the signatures of children without separator; signatures of Value nodes are their texts, so different values can give one signature.
* Value nodes (C83, proved): ValueWithMemo keys its memo by hash((value, name)) and never compares the values (Node/Python.py 197-208): Value(-1) and Value(-2), or n and n + 2**61 - 1, are one node, with the text of the first one named, and a script that changes from one to the other does not rebuild if both are named. The test `if built_value` ignores built values that are false once the value is in the memo.
* Printed trees (C84, proved): print_tree and render_tree remember what they have visited by str(node), so an alias and a file with one name are taken for one node and the second is cut off in brackets. all_children does not remove duplicates between sources, depends and implicit, although its comment discusses it.
* Warnings (C85, proved): process_warn_strings refuses to turn off a class below MandatoryDeprecatedWarning, but not one above it, so --warn=no-deprecated silences mandatory warnings, which the manual denies. --warn extends the default list in place, so the command line is not in SConsValues.__dict__ and a SetOption('warn') hides it when Main.py 1148 processes options.warn again: the script has the last word, against the rule stated in SConsValues. SetOption does not split its string at commas. ToolQtDeprecatedWarning does not exist.
* Special attributes (C86, proved): `$TARGET` of a file outside the top directory is an absolute path (get_path falls back to all elements), the manual shows ../dir2/file.x; `${TARGET.file.suffix}`, which the manual names as a combination that works, raises AttributeError, because file gives a SpecialAttrWrapper; Util.splitext says it is os.path.splitext, but treats .profile and lib.so.1 differently; `${x.base}${x.suffix}` is not the path of the current directory.
* FindSourceFiles (C87, proved): build_source checks isinstance(s, Dir) before disambiguate(), so a directory that is still an Entry is passed over at the first visit, and looked into at later ones; headers and Depends() of built files are not returned, although the manual says all leaf nodes are; a target inside a directory it is made from makes it recurse without end.
* Progress() (C88, proved): the spinner indexes the list with the number of nodes, not of texts shown, so a list with as many strings as the interval never moves; erase_previous writes blanks before the carriage return, so a previous text that does not end in one is not erased.
* Where a run starts (C89, proved): a failed chdir (-C typo) only prints a message and the run goes on in the current directory; -u -C /other without an SConstruct at or above /other runs the SConstruct of the current directory with target_top other/.; climbing looks only at absolute paths and so never in the repositories.
* PackageVariable (C90, proved): _converter compares the default with the words without lower(), so the defaults Yes, No, True, ... are taken for paths when the variable is enabled, and Update fails; a default of boolean False is given back for an enabling word.
