# appended properties
p("C41","Incremental builds give the same files as a clean build",
  "After any sequence of edits, deletions and (complete, partial or failing) runs, a run that succeeds leaves every target with the content a build from scratch would have produced (content decider, actions that are functions of their inputs). Excepted (and shown): histories in which SCons itself is killed in the middle of a run and a file is then changed back, and files changed without changing their timestamp when --max-drift applies.",
  "all histories of edits and runs, all dependency graphs, all action semantics","unbounded histories; the stored signatures of one run are read by all later ones",
  [ND+":Node.changed",FS+":File.is_up_to_date",FS+":File.visited",FS+":File.get_max_drift_csig","SCons/SConsign.py:Base.merge",ND+":NodeInfoBase.merge"])
p("C42","A file fetched from the cache is what building it would give",
  "If signatures have no collisions and every process that pushes a file into the cache directory pushes what the build step produced, then whatever interleaving of pushing, fetching and crashing processes, a file fetched for a build step has exactly the content that building the step would give.",
  "all interleavings of cache clients, all build steps (paths without comma-space)","unbounded processes and interleavings; the key of one step must not equal another's",
  ["SCons/CacheDir.py:CacheDir.copy_from_cache","SCons/CacheDir.py:CacheDir.copy_to_cache",FS+":File.get_cachedir_bsig","SCons/Util/hashes.py:hash_collect"])
p("C43","Append and Prepend add at the documented end",
  "Append (Prepend) of a string or list to a string or list variable succeeds and leaves the old value followed (preceded) by the new one; of an undefined variable, it defines it.",
  "all environments, override chains, old and new values","all values and histories",
  [ENV+":Base.Append",ENV+":Base.Prepend"])
p("C44","A failing action stops the task and fails it",
  "The commands and functions of a task's action run in order up to and including the first that fails (a non-zero status that is not ignored, a true return value, an exception); nothing after it runs, and the task fails exactly if one failed. Excepted (and shown to behave differently): a function that raises an exception carrying status zero or none, such as shutil.SameFileError or an OSError with errno 0.",
  "all nested action lists, all results of commands and functions","all action trees and results",
  ["SCons/Action.py:ListAction.__call__","SCons/Action.py:CommandAction.execute","SCons/Action.py:FunctionAction.execute","SCons/Executor.py:execute_action_list","SCons/Errors.py:convert_to_BuildError"])
p("C45","An #if condition holds exactly when it does in C",
  "For logical combinations (!, &&, ||) of comparisons and arithmetic over integer macros and defined(), the scanner's verdict on an #if or #elif line is that of C, provided evaluation in C does not look at an identifier that is not a macro. Excepted (and shown): such identifiers, c ? 0 : d, quotients, the value of && and || used as a number, division by zero.",
  "all expressions and macro tables","unbounded expressions",
  ["SCons/cpp.py:CPP_to_Python","SCons/cpp.py:PreProcessor.eval_expression"])
ACT="SCons/Action.py"; EXE="SCons/Executor.py"
p("C46","Timestamp deciders, and deciders mixed in one target, decide dependency by dependency",
  "A built file is up to date exactly if it exists, its action signature is the recorded one, it has as many dependencies as were recorded, and each dependency is unchanged according to its own decider: 'content' compares signatures, 'timestamp-match' compares timestamps with the recorded ones, 'timestamp-newer' asks that the dependency is not newer than the target. Straight after a build nothing is rebuilt. Excepted (and shown): under timestamp-newer a dependency replaced by another, not newer one is not noticed.",
  "all targets, dependency lists, recorded information, assignments of deciders to dependencies, file timestamps and contents","all combinations of deciders, dependency lists and histories of timestamps",
  [ND+":Node.changed",FS+":File.changed_timestamp_newer",FS+":File.changed_timestamp_match",FS+":File.changed_content",ENV+":Base.Decider"])
p("C47","Actions run in the order given, up to the first failure",
  "Running an action built from strings, lists, functions, command generators and $VARIABLE references runs exactly the commands and functions it stands for, in the order given and only up to the first that fails; a '-' in front of a command makes its failures ignored, '@' changes nothing else; pre-actions come first, post-actions last. Excepted (and shown): a '-' or '@' in front of a second line of an expanded variable is passed to the shell, Action([g1,g2],generator=1) makes only the first a generator, and a variable that contains a reference to itself and a newline never ends.",
  "all action arguments, variables, generators, results of commands and functions","unbounded nesting of lists, variables and generators",
  [ACT+":_do_create_action",ACT+":_do_create_list_action",ACT+":CommandAction.process",ACT+":CommandAction.execute",ACT+":LazyAction",ACT+":ListAction.__call__",EXE+":execute_action_list",EXE+":Executor.get_action_list"])
p("C48","The action signature changes when what is executed changes, and only then",
  "Joining actions with + runs both and is associative; if the expansion of one command string, or of one variable in the varlist, changes and everything else stays the same, the action's signature text changes, and if all of them stay the same it stays the same; adding a pre- or post-action or replacing an action changes it. Excepted (and shown): texts of several commands are joined without separator, and callable objects, in particular Copy(), Delete(), Touch() ..., are represented by the code of their class only.",
  "all actions and environments","all action trees and environments",
  [ACT+":ActionBase.__add__",ACT+":ActionBase.get_contents",ACT+":ListAction.get_presig",ACT+":FunctionAction.get_presig",ACT+":CommandAction.get_presig",ACT+":ActionCaller.get_contents",EXE+":Executor.get_contents"])
p("C49","Executors keep targets and sources of all batches",
  "$CHANGED_SOURCES, $CHANGED_TARGETS, $UNCHANGED_SOURCES and $UNCHANGED_TARGETS are the sources and targets of the batches whose first target is out of date, respectively up to date, in order, and together all of them; adding sources keeps the old ones in front and adds those not yet there; a target's recorded sources are those of its own batch; everything any target depends on is awaited, and a missing source is reported exactly if there is one. Excepted (and shown): a source named twice in one added list is kept twice.",
  "all batch lists, ignore lists and up-to-date states","all batch structures",
  [EXE+":Executor._get_changes",EXE+":Executor.add_sources",EXE+":Executor.get_unignored_sources",EXE+":Executor.get_all_children",EXE+":Executor.prepare"])
MAIN="SCons/Script/Main.py"
p("C50","scons -c removes what was built and nothing else",
  "A clean run changes the disk only by removing files of the tasks it visits that are built or side-effect files and not marked NoClean, and what was given to Clean() for their first target, directories with everything below them, symbolic links not followed; all of these are gone afterwards if the operating system permits it, for everything the requested targets transitively depend on; with -n nothing changes; files given to Clean() for a target accumulate over calls. Excepted (and shown): NoClean() does not protect a file given to Clean(), Clean() for a further target of a multi-target step is ignored, targets named in one Clean() call share later additions, and one file that cannot be removed keeps the following ones in its directory.",
  "all directory trees, node tables, histories of Clean() calls, dependency graphs, task orders and permission failures","unbounded trees, histories and graphs",
  [MAIN+":CleanTask",ENV+":Base.Clean",ENV+":Base.NoClean",FS+":File.remove","SCons/Taskmaster/__init__.py:Task.make_ready_all"])
p("C51","Command words and file names reach the program unchanged",
  "On POSIX, the text given to the shell for an expanded command is, under the shell's quoting rules, exactly the list of its words, whatever characters file names contain; a command longer than MAXLINELENGTH is replaced by the same command with a response file that holds exactly its arguments. Excepted (and shown): backquotes in file names are executed by the shell; empty arguments are lost in response files; the limit is compared with the length before quoting; a command text that expands differently the second time for the same target reuses the first response file.",
  "all word lists and characters, all limits, all histories of response files","all strings and lists; the property relates the quoting code to the shell's grammar",
  ["SCons/Platform/posix.py:escape","SCons/Platform/posix.py:subprocess_spawn","SCons/Subst.py:quote_spaces","SCons/Subst.py:CmdStringHolder.escape","SCons/Subst.py:escape_list","SCons/Platform/__init__.py:TempFileMunge.__call__"])
p("C52","A cloned environment and its original are independent",
  "Clone() gives an environment with the same variables and equal values, those named in the call replaced; whatever a script then does, in any order, with lists and dictionaries (at any depth) it gets through one of the two, or that it passed to Clone(), changes nothing that is seen through the other; Clone() returns for all values that do not contain themselves. Excepted (and shown): sets, OrderedDict and other objects not of a basic type are shared, contrary to the documentation, and a list that contains itself makes Clone() recurse for ever.",
  "all heaps of nested and shared Python values, all histories of in-place changes and assignments through either environment","aliasing through any sharing pattern and any history of changes",
  [ENV+":Base.Clone",ENV+":copy_non_reserved_keywords",ENV+":Base.Replace","SCons/Util/__init__.py:semi_deepcopy","SCons/Util/__init__.py:semi_deepcopy_dict"])
JOB="SCons/Taskmaster/Job.py"
p("C53","An interrupt stops the build cleanly",
  "After SIGINT, SIGTERM or SIGHUP has been handled, no further task is handed out and no worker begins to execute one, however the threads are scheduled and however many more signals arrive; only a bounded number of further actions takes place and every worker returns and is joined; the commands that were running are waited for and reported with their own results; every task handed out but not begun is reported as failed, never as built. Excepted (and shown): with --ignore-errors such a task is recorded as built although it was never executed.",
  "all interleavings of workers and signals, all numbers of workers, all graphs and results","races between a signal handler and any number of threads",
  [JOB+":Jobs._setup_sig_handler",JOB+":InterruptState",JOB+":NewParallel._work","SCons/Taskmaster/__init__.py:Taskmaster.stop",MAIN+":BuildTask.do_failed"])
VAR="SCons/Variables/"
p("C54","Build variables: command line before files before defaults, validated, and restored by Save",
  "After Variables.Update every declared variable has the value its converter makes of the value given last on the command line under any of its names, otherwise in the last saved-variables file that gives it, otherwise of its default; a variable without any and all other environment entries are untouched; Update returns exactly if converters and validators accept; UnknownVariables() are exactly the names given that no variable has, 'defaulted' exactly the variables with a default that were not given; Bool, Enum and List variables hold only allowed values; the file written by Save gives the same values when it is loaded. Excepted (and shown): a BoolVariable with default None that is set to False is not saved, a ListVariable with several default elements is saved although it has its default value, and Save raises an exception if a default cannot be converted.",
  "all lists of variables, converters, validators, saved files, command lines and environments","all inputs and all combinations of sources",
  [VAR+"__init__.py:Variables.Update",VAR+"__init__.py:Variables.Save",VAR+"__init__.py:Variables._do_add",VAR+"BoolVariable.py:_text2bool",VAR+"EnumVariable.py:EnumVariable",VAR+"ListVariable.py:_converter"])
BLD="SCons/Builder.py"
p("C55","There is one way to build each target",
  "Whatever Builder, SideEffect, AddPreAction and AddPostAction calls the scripts make: a Builder call for a target that has a builder already is an error unless it says the same (same sources, and same environment or same action contents; for multi builders: same builder and target list, the sources being added), and the same call may be repeated; no file is both a side effect and a target; once the scripts are read, each target is built by the action of the last call that names it, with its targets and sources, by one command only, and with the actions added since, in order. Excepted (and shown): in one environment a second call with another action is accepted silently and replaces the first; a target of several that is defined again alone is built by two commands; a pre- or post-action added before the Builder call is lost, or, with Tar and other multi builders, makes the builder's action lost; a call with a source named twice is refused when repeated.",
  "all histories of Builder, SideEffect and action calls over any targets, sources, builders and environments","unbounded histories of calls with overlapping targets",
  [BLD+":_node_errors",BLD+":BuilderBase._execute",ND+":Node.get_executor",ND+":Node.builder_set",ND+":Node.add_source",EXE+":Executor.add_sources",EXE+":Null._morph",ENV+":Base.SideEffect",ENV+":Base.AddPreAction"])
UTL="SCons/Util/__init__.py"
p("C56","Sources are turned into what a builder needs, and targets get their names",
  "A source of a builder with source builders is kept if none of them takes its suffix, and otherwise replaced by what the source builder makes of it, in the order of the sources: no source is lost, everything a call returns is made from one of the sources, and a single-source builder called for a list without a target is called for each of them; a source given by a name with an extension is treated as the node. The suffixes a builder takes are its own (the default first) and those of its source builders as they are now, whatever was asked before. A target without a name is called prefix+root+suffix after its source, the extension being the longest known suffix, so sources with the same extension give different targets; a name that is given keeps its directory and gets the prefix and suffix it lacks, once. A builder with an action for each suffix uses the action for the extension of its sources and refuses sources with different extensions. Excepted (and shown): a suffix added to a builder that was already used in the environment is not noticed; a source builder making several files none of which is usable loses the source; for a list of sources of a single-source builder the results may be converted once more; a source named by a variable gets the default suffix although its value has one; the source builder is chosen by the first suffix that fits, not the longest; a file called like the suffix gets no suffix although a comment says so; a name ending in a slash can get the prefix twice; whether a source without extension is accepted beside others depends on their order.",
  "all builders and trees of source builders, emitters, names, prefixes, suffixes, source lists and histories of calls","all names and all configurations of builders",
  [BLD+":BuilderBase.src_builder_sources",BLD+":BuilderBase._execute",BLD+":BuilderBase._create_nodes",BLD+":BuilderBase.src_suffixes",BLD+":BuilderBase.subst_src_suffixes",BLD+":match_splitext",BLD+":DictCmdGenerator",UTL+":adjustixes",UTL+":splitext",UTL+":Selector",ND+":target_from_source_base"])
p("C57","Variant directories mirror their sources and never damage them",
  "VariantDir is refused exactly when the source is the variant directory or inside it, or when the directory has another source already; whatever was looked up before, the source of a file is the file at the same relative path in the source of the innermost variant directory it is in, and itself when it is in none; naming a source file or directory on the command line asks for the corresponding ones of all its variant directories and for nothing else; a node is duplicated as its variant directories were declared, when they agree. With duplicate=1, for any state of the disk, any order of linking methods and any of them failing: once a copy has been asked for, to the end of the run it has the content of its source, or is absent if the source is; nothing but copies and built targets changes on disk, no content of a source changes even when it shared its file with a target or copy; a target is written to a file of its own; asking ends when no source is inside or above a variant directory, or sources are nearer the root than their variants; with -n the only change is that copies without source are removed. Exceptions, proved to be real: that removal under -n; a Precious target writes into a source it shares a file with; a copy that cannot be removed is written through; a source that is a relative symbolic link is followed from the wrong directory; directories that are variants of each other recurse for ever; when nested variant directories disagree on duplicate the order of calls decides.",
  "all histories of VariantDir calls and lookups, all disks with hard and symbolic links, all orders of exists queries and builds, all failures of link, symlink and copy","all histories, all sharing of files on disk, all failures",
  [FS+":FS.VariantDir",FS+":Dir.link",FS+":Dir.srcdir_list",FS+":Base.srcnode",FS+":FS.variant_dir_target_climb",FS+":File.do_duplicate",FS+":File.prepare",FS+":LinkFunc",FS+":_hardlink_func",ND+":exists_file"])
p("C58","ParseFlags and MergeFlags put every flag where it belongs",
  "ParseFlags reads every string given, however nested in lists, word by word, each word by the longest entry of the documented table that it matches (with its argument where the flag takes one), and puts the values into the documented variables in the order of the flags, nothing else and nothing lost; words may be quoted, and may be given in one string or several as long as no flag is separated from its argument; strings that are well quoted and have no empty word are always accepted. MergeFlags adds the parsed values (or those of a dictionary) to each variable, removes duplicates (the first occurrence stays for variables named ...PATH, the last one otherwise), loses and invents nothing, leaves other variables alone, and doing it again changes nothing; the macros of -D flags reach the command line as written. Excepted (and shown): an empty quoted word raises IndexError; a two-word flag at the end of a string or list element is lost and its argument becomes a library; -std=c++... goes to CXXFLAGS, contrary to the documentation; merging into a string variable changes the caller's list, and tuples and deques raise or are nested.",
  "all flag strings, quotings, nestings of lists, environments and dictionaries","all strings; the reading of a word depends on all the words before it",
  [ENV+":SubstitutionEnvironment.ParseFlags",ENV+":SubstitutionEnvironment.MergeFlags","SCons/Util/__init__.py:Split","doc/man/scons.xml"])
p("C59","Preprocessor macros: what is defined is what was added",
  "For every value of CPPDEFINES (string, list, tuple, dictionary, deque) and every value added: Append gives the macros of the old value followed by those of the new one; Prepend gives all of them, the old ones last in their order; nothing is ever lost; with AppendUnique and PrependUnique a macro already defined is not added again, or (delete_existing) moved to the end (front); for entries written in the usual ways no macro is there twice if it was not before. Excepted (and shown): Prepend of several macros reverses them; a number and its digits, a value with two equal signs, a one-element tuple, and duplicates inside one list are not recognised; a scalar that is no string is dropped; the documentation's own example gives another result.",
  "all values of CPPDEFINES in all the accepted forms, all values added","all nested values; the conversion between forms differs by case",
  [ENV+":_add_cppdefines",ENV+":Base.Append",ENV+":Base.Prepend",ENV+":Base.AppendUnique",ENV+":Base.PrependUnique","SCons/Defaults.py:processDefines"])
SCN="SCons/Script/SConscript.py"
p("C60","SConscript files: each in its own namespace and directory, with Export, Import and Return",
  "Whatever scripts do (assignments, conditionals, functions, try, Export, Import, Return, SConscript calls nested and repeated to any depth, recursion included), reading them ends with exactly the output, the values and the outcome of the rules of the user's guide: a script starts with the default globals only; Export makes known the values variables have then, local ones before global ones; Import gives the variables of the exports argument before those exported, or an error if neither has them, and never changes the caller; Return gives the values of variables (one, or a tuple) to the caller and ends the script; files are read in order, relative names meaning those below the directory of the caller, and the first that fails ends the call; afterwards the caller's variables, directory, sys.path and nesting depth are as before even if the script failed; a result does not depend on anything else; without SConscriptChdir(False) the directory of the process is always that of the script being read. Excepted (and shown): Return in a script from standard input is an exception that ends the calling script; Return inside a try that catches exceptions does not end the script; Return cannot return a local variable of a function although Export can export it; after SConscriptChdir(False) in a called script the directory of the process stays that of the called script.",
  "all programs of scripts of any length and nesting, all terminating runs","unbounded nesting and recursion, all positions of failures",
  [SCN+":_SConscript",SCN+":Frame",SCN+":compute_exports",SCN+":Return",SCN+":handle_missing_SConscript",SCN+":SConsEnvironment.Export",SCN+":SConsEnvironment.Import",SCN+":SConsEnvironment.SConscriptChdir",FS+":FS.chdir"])
OPT="SCons/Script/SConsOptions.py"
p("C61","Command-line options: the command line, then SetOption, then the default",
  "For every command line of options of SCons (grouped, with attached or separate arguments), options of the project with attached arguments, targets, variables, unknown options and words after --, and every sequence of AddOption, SetOption and GetOption calls: reading the scripts does not end the program, and at any point GetOption gives what the occurrences of the option on the command line make of its default, in their order, if there are any; otherwise what SetOption said last (refused if not settable or not valid, converted, or added to the list); otherwise the default; the options of the project are known from their AddOption call on, whatever other options are added before or after. An option of SCons without the value it needs, with a value that is not of its type, or with a value although it takes none ends the program with status 2, before any script is read. When the scripts have been read, an option that nobody knows ends the program with status 2, otherwise the values stay and exactly the words that are no options are left, in order. The targets and variables of the command line are exactly those words and the words after --. Excepted (and shown): arguments of project options in a word of their own (documented as undefined); a word - hides project options after it until the end; an option written both --long and -s may lose its order; options adding to a list with a default are overridden by SetOption; hash_chunksize can be set but not asked for; setting implicit_deps_changed has no effect.",
  "all option tables, all command lines of the grammar, all histories of calls","all command lines and all orders of AddOption calls: the line is read again at each of them",
  [OPT+":SConsValues",OPT+":SConsOptionParser.reparse_local_options",OPT+":SConsOptionParser.add_local_option",OPT+":SConsOptionParser._process_long_opt",OPT+":SConsOptionParser._process_short_opts",MAIN+":AddOption",MAIN+":_main"])
p("C62","Target selection: command line, BUILD_TARGETS, Default, and -u, -D, -U",
  "For every command line, every sequence of Default calls (None forgets the earlier ones) and direct changes of BUILD_TARGETS in scripts, and every starting directory: COMMAND_LINE_TARGETS has the targets of the command line, DEFAULT_TARGETS those of Default since the last None, BUILD_TARGETS the former if there are any and else the latter. With -u, -D or -U the scripts are those of the nearest directory at or above the starting one that has a SConstruct. If there are targets before any -- on the command line, or a script has changed BUILD_TARGETS itself, exactly BUILD_TARGETS is built, in order, each name meaning an alias or else the file it names from the starting directory (# from the top directory). Otherwise: without -u and -U, all default targets, or the top directory if Default was never called; with -u those default targets at or below the starting directory, the starting directory itself in place of each directory above it, and aliases; with -U those that were made by scripts of the starting directory (and aliases and sources). If there is nothing in the list the program stops with no targets. ARGLIST has the variables of the command line in order, split at the first =, ARGUMENTS the last value of each. (Exceptions, proved to be real: `scons -- foo` builds the default targets; -U drops directories named by Default in the script of their parent; -U without any Default stops.)",
  "all command lines, histories of Default calls and changes of BUILD_TARGETS, starting directories, directories with SConstruct, names","all histories and all directory structures",
  ["SCons/Script/__init__.py:_Add_Targets","SCons/Script/__init__.py:_Set_Default_Targets","SCons/Script/__init__.py:_Add_Arguments","SCons/Script/__init__.py:TargetList",MAIN+":_build_targets",MAIN+":_main"])
p("C63","Glob finds exactly the matching files and targets",
  "For every pattern with any number of levels, every set of nodes known and every content of disk, variant source directories and repositories: Glob gives exactly the nodes whose names match the pattern level by level (* ? and [...] as in a shell, a leading dot only by a pattern with one), known already or on disk (unless ondisk=False) in one of the directories searched for their directory, of which none matches the string of a node found by an exclude pattern; each once, sorted by their strings, whatever the order of directory listings and of sets (for different strings). With strings=True the same as strings: names, below the string of their directory if the pattern has a directory part. Known nodes stay, known as file or directory as they were, new ones are names that are there, and the result of a later Glob is not changed by an earlier one. Exceptions: the argument source has no effect; a name with brackets is not excluded by its own name; # without a slash does not mean the top directory; a missing directory part becomes a node which the next Glob finds; files with a leading #; a trailing slash is an IndexError; nodes with the same string come in the order of a set; chains of variant directories.",
  "all patterns, all known nodes, all directory contents, all search paths, all orders of sets and listings","all patterns and trees of any depth, and all orders of iteration",
  [FS+":Dir.glob",FS+":Dir._glob1",FS+":has_glob_magic",FS+":Entry.disambiguate",FS+":RootDir._lookup_abs",ENV+":Base.Glob"])
SCF="SCons/SConf.py"
p("C64","Configure tests: a result from an earlier run is given only while it is right",
  "For every test (any number of commands, each making one file from files of the project, files found by scanning and files made by earlier commands) and every history of tests, changes of the files of the project and lost .sconsign entries: TryCompile, TryLink, TryRun and so on give the result, the files and the output they give when all commands are run in an empty configure directory; a failure counts as a result. No command is run again while the test is recorded and its files are the same. --config=force runs every command up to the first that fails; --config=cache runs none and gives what is recorded, or a UserError if it is not; -n runs none, changes nothing, and gives the right result or an error. Exceptions: a header is seen as it was at the end of the last build that used it; if the files of the configure directory are removed but .sconsign is not, tests fail, and so they do from then on; --config=cache removes the files of tests whose sources have changed, so TryRun gives an empty output and later tests fail.",
  "all tests, all histories of tests and changes, all modes","all histories of changes between runs; failures and successes recorded in earlier runs",
  [SCF+":SConfBuildTask.execute",SCF+":SConfBuildTask.collect_node_states",SCF+":SConfBase.BuildNodes",SCF+":SConfBase.TryBuild",SCF+":SConfBase.TryRun",FS+":File.get_max_drift_csig",FS+":File.prepare"])
p("C65","Interactive mode: every build command does what a separate run of scons would do",
  "For every project, every sequence of build commands (of any targets, failing or not, with tasks in any order) and changes of files between them: the commands run by each build, the files and the .sconsign entries left are those of a separate run of scons on the files of that moment; and when a build succeeds, all targets it needs are built from the present contents of what they depend on, and are recorded so. Between two builds, finding the nodes to forget ends, even with cyclic dependencies. Conditions: what a generated file includes is always the same; what Requires names and the other targets of an action are dependencies of the targets built as well (without any one of these, a build may leave a file out of date: proved).",
  "all projects, all sequences of commands and edits, all orders of tasks, all states of .sconsign","all histories of builds and edits: what is remembered from one build to the next shows only later, and only for some dependency graphs",
  ["SCons/Script/Interactive.py:SConsInteractiveCmd.do_build",ND+":Node.clear",ND+":Walker",ND+":Node.built",ND+":Node.scan","SCons/Taskmaster/__init__.py:Taskmaster._find_next_ready_node","SCons/Taskmaster/__init__.py:Task.make_ready_current"])
p("C66","scons -n and scons -q tell the truth and change nothing",
  "For every project without a CacheDir (see C71), state of the files and .sconsign, and order of tasks: scons -n changes no file and no entry of .sconsign; it lists each action once, and exactly those that have a target, needed by the targets asked for, which is missing or not current with respect to the present contents of what it depends on. scons -q gives status 1 exactly if there is such a target, or a target asked for that cannot be built does not exist. Compared with a real run: status 0 means that a real run gives no command, and a real run that succeeds without a command means status 0 and an empty list; the first command of a real run is always in the list; a listed command nothing below which is listed is run by every successful real run, if the scripts (not the contents of files) make it a dependency. In general the list is neither contained in what a real run does nor contains it (proved).",
  "all projects, all contents of files and .sconsign, all orders of tasks, all targets","all states of files and records: the list is a claim about a run that has not happened",
  [MAIN+":_build_targets",MAIN+":QuestionTask",MAIN+":BuildTask",ACT+":_ActionAction.__call__",ND+":store_info_file",ND+":Node.built","SCons/Taskmaster/__init__.py:Task.make_ready_current"])
p("C67","--implicit-cache: targets are still brought up to date, and nothing is scanned when nothing has changed",
  "For every history of runs (with --implicit-cache, --implicit-deps-changed or neither, each complete or interrupted, of any targets, with tasks in any order) and of changes of the scripts and the files between them: a run that ends without a failure leaves every target it needs equal to what its command makes of the present contents of its dependencies, found by a full scan, and recorded so. A following run of the same targets runs no command and changes no file, and with --implicit-cache scans no file at all. A run that succeeds without --implicit-cache, or with --implicit-deps-changed, scans all sources of all targets it needs and all files found there. With --implicit-deps-unchanged a file is scanned only for a target about which nothing is recorded. Conditions: a command names the sources of its target; no file appears or vanishes so that an #include stands for another file; --implicit-deps-unchanged was not used before (without either of the last two a target may be left out of date: proved). A run with --implicit-cache may however fail, or run a command nothing needs, where a run without it does not: proved.",
  "all projects, all histories of runs, interruptions and edits, all orders of tasks","all histories: a list of dependencies recorded in one run is used in another, after any changes",
  [ND+":Node.scan",ND+":Node.add_to_implicit",ND+":Node._add_child",ND+":Node.changed",ND+":Node.get_binfo",FS+":File.get_stored_implicit",FS+":FileBuildInfo.prepare_dependencies","SCons/Executor.py:Executor.scan","SCons/Taskmaster/__init__.py:Taskmaster._find_next_ready_node"])
p("C68","C sources depend on the files their #include lines name",
  "For every text and every arrangement of files: the C scanner finds exactly the names in lines of the form # include or # import (blanks allowed) followed by a name in quotes or angle brackets, in order, if no such line lacks its closing character; whatever the text, a name that is found stands after such a beginning of a line. The source depends on a file exactly if it is the first file along the search path (its own directory first for quotes, last for angle brackets; sub-directories, .. and absolute names resolved piece by piece) that one of the names stands for. The dependencies, as a list, do not depend on the order of the lines, nor on what was remembered from earlier searches. Excepted (and shown): a directive without its closing character, e.g. in a comment, hides the next directive; comments before the name, continued lines, #include_next and macros are not seen.",
  "all texts, all directories and search paths","all texts: a directive can stand anywhere; all orders of directories and all histories of searches",
  ["SCons/Scanner/C.py:CScanner","SCons/Scanner/__init__.py:Classic.scan","SCons/Scanner/__init__.py:Classic.find_include_names","SCons/Scanner/__init__.py:ClassicCPP.find_include","SCons/Scanner/__init__.py:ClassicCPP.sort_key",FS+":FileFinder.find_file",FS+":FileFinder.filedir_lookup"])
p("C69","LIBS: the library the linker picks is a dependency of the program",
  "For every value of LIBS, the linker is told its items in order: a File node as itself, any other as -lNAME where NAME is the item without one of LIBPREFIXES and one of LIBSUFFIXES (unchanged if it has the literal prefix, without a second -l if it has one). The program depends on the nodes in LIBS and, for each name, prefix and suffix, on the first file along LIBPATH called so. Hence, if the libraries are File nodes and plain names (foo, libfoo, foo.1: no extension, not the prefix itself, no -l, no literal prefix, no slash), whatever library the linker reads for a word of the command line - it takes one from the first directory that has any, with any preference among suffixes - the program depends on it. For other names this is false: proved, case by case.",
  "all lists of libraries, all contents of all directories along LIBPATH, all preferences of the linker","all names and directories: options and dependencies are computed by different functions with different rules",
  ["SCons/Defaults.py:_stripixes","SCons/Defaults.py:_concat_ixes","SCons/PathList.py:_PathList","SCons/Scanner/Prog.py:scan","SCons/Scanner/Prog.py:_subst_libs","SCons/Util/__init__.py:adjustixes","SCons/Tool/link.py:generate",FS+":find_file"])
p("C70","--debug=explain gives the true reasons for a rebuild",
  "For every target that exists and was built in an earlier run, and every change of its description, dependencies, files and action since, with any mixture of the four deciders: the reasons printed are exactly the true ones - the dependencies that are gone, new, or changed according to their decider compared with what was recorded for the same dependency; if there are none, that their order changed; if not that either, that the action changed, in its text or in its contents only. A target that is rebuilt because it is out of date is never said to be rebuilt for unknown reasons. A target that is missing or has AlwaysBuild is said to be so. Conditions (both needed, proved): no explicit dependency is also ignored; the file was a target in the earlier run.",
  "all descriptions of the target before and after, all contents and times of files, all recorded states, all deciders","all pairs of an earlier and a present state: the explanation is computed by other code than the decision",
  [ND+":Node.explain",ND+":Node.changed",ND+":Node.get_binfo",FS+":FileBuildInfo.prepare_dependencies",FS+":FileNodeInfo.str_to_node",MAIN+":BuildTask.make_ready"])
p("C71","The options of the derived-file cache do what they say",
  "If keys do not collide and every file in the cache is what its task gives for its dependencies: (a) whatever combination of --cache-disable, --cache-readonly, --cache-force, --cache-show and NoCache(), whatever is in the cache and whatever other processes do to it, a build leaves the same files and the same .sconsign, and fails in the same places, as without a cache, and the cache stays right (with --cache-force: if no target was changed by hand); (b) with --cache-readonly, --cache-disable or -n no file in the cache is written, replaced or removed; (c) with --cache-disable what is in the cache has no effect and nothing is fetched; (d) a NoCache() target is neither stored nor fetched; (e) --cache-show changes only what is printed, the command line instead of the message for each fetched file; (f) after a build every target that was built or fetched is in the cache under its present key, with --cache-force also every target that was up to date; (g) then a build from the same sources elsewhere executes no command and gives the same files; (h) -n executes nothing, writes no file and no record; (i) in a tree without targets -n lists every command that a real run executes. Excepted (and shown): -n removes an existing target of a command with several targets, if it is in the cache and another target is not; -n looks at entries of NoCache() files; in a tree with old targets (i) fails; the cache directory itself is created under all options.",
  "all projects of tasks with any number of targets, orders of tasks, contents of files, cache and .sconsign, actions of other processes on the cache, and all combinations of the options","all states of the cache and of the tree, and all concurrent changes of the cache",
  ["SCons/CacheDir.py:CacheRetrieveFunc","SCons/CacheDir.py:CachePushFunc","SCons/CacheDir.py:CacheDir.retrieve","SCons/CacheDir.py:CacheDir.push","SCons/CacheDir.py:CacheDir.push_if_forced",FS+":File.push_to_cache",FS+":File.retrieve_from_cache",FS+":File.visited",FS+":File.get_cachedir_csig",FS+":File.get_cachedir_bsig","SCons/Taskmaster/__init__.py:Task.execute",ENV+":Base.NoCache",ENV+":Base.get_CacheDir",MAIN+":_build_targets"])
p("C72","Chmod() sets the permissions it is given",
  "For every list of existing files (also with links and with the same file several times): (a) a symbolic mode of clauses that each name classes of users (u, g, o, a), with + or -, or with = and all classes, leaves exactly the permissions that chmod(1) leaves, and with + and - only also the set-id and sticky bits; (b) a number, or its octal digits as a string, becomes the mode of each file; (c) no file that is not in the list is changed, whatever the mode is and whichever error is raised; (d) if a mode is refused as a syntax error, some clause is not one that chmod(1) would be given, and what has been done is what the clauses before it do. Excepted (and shown): = with some of the classes takes all permissions of the others away (u=rwx,g=rx,o=rx leaves only o=rx); without a class + and - do nothing and = takes everything away; some wrong clauses are accepted and take everything away; the clauses before a wrong one have been carried out.",
  "all lists of files, permissions, symbolic and numeric modes","all modes and all sequences of clauses",
  ["SCons/Defaults.py:chmod_func","SCons/Defaults.py:permission_dic"])
p("C73","Copy, Delete and Install do to files what they say and nothing else",
  "For every file system (with symbolic links), if the path of the destination has no links in it and no path of the source leads through the destination: (a) Copy of a directory to a free name gives there exactly the tree of the source, contents, modes, names and, as symlinks says, the links or what they lead to; nothing outside the destination is changed, also if it fails; and it succeeds if the tree ends and no link that is followed is dangling; (b) Install of a directory gives at the destination everything that is in the source, links followed, leaves what was there besides, changes nothing outside, if there are no links in the destination, and succeeds if no file meets a directory; (c) Copy and Install of a file give its contents and mode (Install: made writable) and change nothing else; (d) Copy of a link makes a link with the same text if the name is free, else fails and changes nothing; with symlinks=False it does what Copy of the file it leads to does; (e) Copy of a list puts each file into the directory, made if need be; (f) Delete removes nothing but the entries in the list and what is below them, and never what a link leads to; (g) afterwards they are gone, and nothing else; (h) with must_exist a missing entry is an error; (i) source and destination are apart in this sense if neither contains the other and the links in the source stay in it; (j) without links the tree of the source is what is there. Excepted (and shown): Install of a directory keeps stale files, writes through links in the destination, puts a file into a directory of the same name, does not make the files writable; Install of a file on a directory changes the mode of the directory; Copy(symlinks=False) of a link to a directory recreates the links in it; relative links are copied as text; files of a list with the same name overwrite each other.",
  "all file systems, sources, destinations, link texts, lists and options","all trees of files and links and all positions of source and destination",
  ["SCons/Defaults.py:copy_func","SCons/Defaults.py:delete_func","SCons/Tool/install.py:scons_copytree","SCons/Tool/install.py:copyFunc"])
p("C74","Textfile and Substfile write the text they are given, and write it again when it changes",
  "(a) A key is replaced at every occurrence, from the left, without overlaps, and this determines the result; (b) text in which no key occurs is written as it is; (c) for references written with an opening and a closing character (or the same one, if what follows a reference cannot be part of a name) every reference is replaced by its value at once, references without a value stay; values are not searched again, if they do not contain the opening character; (d) the order of the entries does not matter then; (e) Textfile writes its strings and nodes, from nested lists in order, with the separator between them and not after, and takes exactly one target; (f) for a dictionary of strings without dollars and runs of blanks and a visible separator, the signature of the action is defined and determines the entries and the separator; (g) so with the same signature and sources the same text would be written. Excepted (and shown): the signature does not see a change of LINESEPARATOR between whitespace strings, of a construction variable named in a value of a dictionary, of the order of a dictionary whose keys interact, of blanks before a brace, of what is between $( and $), of the result of a callable, of FILE_ENCODING, and of where pairs of a sequence begin and end; a value with $( makes the build fail; a line that is the name of an alias cannot be written.",
  "all texts, keys, values, dictionaries, orders, separators and nested lists of sources","all templates and dictionaries",
  ["SCons/Tool/textfile.py:_do_subst","SCons/Tool/textfile.py:_action","SCons/Tool/textfile.py:_convert_list","SCons/Action.py:ActionBase.get_contents","SCons/Util/sctypes.py:to_String_for_signature","SCons/Environment.py:SubstitutionEnvironment.arg2nodes"])
p("C75","Before a command is run its sources are checked, its directories made and its old targets removed, and nothing else is touched",
  "For every disk and every task: (a) if a source (not built, not in a repository) is missing, an error names a missing source and nothing is changed; when a task has been prepared no source and no explicit or implicit dependency of its file targets is missing; for a task with one target a missing dependency changes nothing; (b) whatever the outcome, nothing is removed but files at the place of out-of-date targets that are built and not Precious, never a directory, and nothing is made but directories above targets; (c) when it succeeds, the directories of the targets are there, old targets are gone, and Precious ones (so also side effects) and everything not built are as before, if no target is to be a directory of another and no directory is a dangling link; (d) under -n nothing is changed; (e) it succeeds if nothing is missing, no directory is at the place of a target and nothing but directories (or links to them) above. Excepted (and shown): with several targets, the first may be removed before the missing dependency of a later one is noticed; a dangling link or a file in place of a directory is not noticed; the dependencies of directories are not checked; the sources of up-to-date targets are.",
  "all disks, tasks, targets, side effects, dependencies and attributes","all states of the disk and all positions of targets in it",
  ["SCons/Taskmaster/__init__.py:Task.prepare","SCons/Executor.py:Executor.prepare","SCons/Node/__init__.py:Node.prepare","SCons/Node/FS.py:File.prepare","SCons/Node/FS.py:Dir._create","SCons/Node/FS.py:MkdirFunc","SCons/Node/FS.py:UnlinkFunc"])
p("C76","ParseDepends reads the dependencies written in a file of make rules, and adds these and nothing else",
  "For every file: (a) if it consists of comment lines, lines without a colon, and rules 'targets: dependencies' (each of these possibly cut into several lines by backslash and newline, with blanks after the backslash allowed), the rules found are the ones written, each with all its targets and all its dependencies, in order; (b) also if its lines end with CR LF; (c) ParseDepends adds to each target the dependencies of the rules that name it and nothing else, after those it has, none twice; (d) it fails exactly if the file cannot be read and must_exist is given, or there is more than one target and only_one is given, and adds nothing then; a missing file is ignored otherwise. Excepted (and shown): a backslash-newline joins the words before and after it (in make it separates them); blanks and colons in names cannot be escaped, a drive letter ends the targets; a comment after a rule is not one; other statements of makefiles (assignments) are read as rules; with only_one a target that is named by two rules, or the empty rules gcc -MP writes, are an error.",
  "all texts, all ways to cut lines, all earlier dependencies, all settings of must_exist and only_one","all texts and all ways to cut them into lines",
  ["SCons/Environment.py:Base.ParseDepends","SCons/Util/__init__.py:logical_lines","SCons/Environment.py:Base.Depends","SCons/Node/__init__.py:Node._add_child"])
p("C77","Command lines that are too long are put into temporary files: the program gets the same arguments, and no file is left behind",
  "For every history of commands that use TEMPFILE: (a) what is written to a temporary file is read back (by the usual readers of response files) as exactly the arguments of the command, if these are not empty and have no quotes, backslashes or line ends (blanks are allowed), with any white space as TEMPFILEARGJOIN; (b) a command whose words with blanks between them are not longer than MAXLINELENGTH (2048 if that is not a number) is run as it is, and exactly then, and the signature of a command never depends on temporary files or MAXLINELENGTH; (c) a longer command is run as the program and one temporary file that was not there before, holds its arguments as long as scons runs, and is shared only by calls for the same target and command; (d) when scons ends the disk is as it was, no file that was there is ever changed, and each temporary file is announced at most once; (e) if the arguments cannot be encoded nothing is left behind. Excepted (and shown): empty arguments are lost, and quotes, backslashes and newlines in arguments are not protected; a command of the same text for the same target that expands to something else later gets the file of the first; only the first line of commands of several lines is looked at, and the others are lost if it is long; the quotes the shell needs are not counted.",
  "all commands, settings, limits, histories of calls and disks","all arguments and all histories",
  ["SCons/Platform/__init__.py:TempFileMunge.__call__","SCons/Subst.py:quote_spaces"])
p("C78","WhereIs and Detect find the first program of the search path",
  "For every file system, search path and name (POSIX): (a) WhereIs gives the normalized path of the program in the first directory of the path (given as text or list; an empty entry is the current directory) that has an executable file of that name which is not rejected, and None exactly if no directory has one; (b) if there are no symbolic links, that path names the program that was found; (c) Environment.WhereIs uses the path it is given, else ENV's PATH, else that of the process, and looks for the first word of a text with arguments; (d) Detect gives the first of its programs that WhereIs finds, None if it finds none. Excepted (and shown): through symbolic links a/.. is not nothing, so that the result can name another file; reject is compared with paths that are not normalized; names with slashes are looked for in the search path; the result may be relative; an empty PATH is the current directory; a name of blanks raises IndexError.",
  "all file systems, current directories, search paths, names, reject lists and program lists","all file systems and all search paths",
  ["SCons/Util/__init__.py:WhereIs","SCons/Environment.py:Base.WhereIs","SCons/Environment.py:Base.Detect"])
p("C79","Fortran sources depend on the files they include and the modules they use",
  "For every Fortran source text: (a) the modules found to be used are exactly those the USE statements name, in order, wherever in a line the statement stands, in any case, with :: and INTRINSIC or without, provided that no such statement is broken off in a line and goes on in the next; (b) the modules found to be defined are exactly those of the MODULE statements (not MODULE PROCEDURE and so on); (c) the included files are exactly those the INCLUDE lines name, for texts without semicolons; (d, e) a source needs the files it includes and, for every module it uses and does not define itself (in any case), the lower-case name with the suffix of module files, and nothing else; (f) compiling it makes exactly such a file for every module it defines; (g) the dependencies are those of these names that are found, each once, in the order of the names; (h) so a source that uses a module depends on the file that compiling the defining source makes, also when they are spelled in different cases. Excepted (and shown): modules whose names begin with pure, function, subroutine, procedure or elemental are not seen as defined; USE after a semicolon counts in comments and literals too; USE continued with & is not seen; a module that is defined in two spellings is twice in the targets.",
  "all source texts, suffixes, and ways of finding files","all texts",
  ["SCons/Scanner/Fortran.py:F90Scanner.scan","SCons/Scanner/Fortran.py:FortranScan","SCons/Tool/FortranCommon.py:_fortranEmitter","SCons/Util/__init__.py:unique"])
p("C80","A directory as a source stands for everything in it",
  "(a) With the directory scanner (Zip, Tar, source_scanner=DirScanner) a target made from a directory depends on exactly the files and directories below it, on disk or known as targets, to any depth, each once, except . and .. and the files of the signature database; (b) the scan ends whenever there are finitely many; (c) the order in which the system lists names makes no difference; (d) without that scanner the dependencies are exactly the directory's own entries that SCons knows; (e) if two directories have the same signature then at every path of one there is the same in the other, with the same contents, unless a file stands there whose content is the text that a directory's signature is made from (no two texts with one digest, names of one line); (f) the order of nodes in a directory makes no difference to its signature. Excepted (and shown): names with newlines and such files give two directories one signature; a target inside its source directory depends on itself; a signature database under a name of one's own is a dependency like any file; without the scanner changes to files nobody has named are not noticed; a directory that contains itself by a link has no end.",
  "all directory trees, all sets of known targets, all orders of listing, all hash functions without collisions","all trees",
  ["SCons/Scanner/Dir.py:scan_on_disk","SCons/Scanner/Dir.py:scan_in_memory","SCons/Node/__init__.py:Node.get_implicit_deps","SCons/Node/__init__.py:get_contents_dir","SCons/Node/FS.py:Dir.get_csig"])
p("C81","Versioned shared libraries are found by their recorded name",
  "(a) The name recorded in a library (-soname) is the plain name with the first part of SHLIBVERSION, or with SOVERSION, or SONAME; the links made are exactly the plain name and the recorded name (unless the library has that itself); (b) the library is called prefix name suffix . version, in the directory of the name given; (c) two versions have the same recorded name exactly when their first parts agree; (d) without a version nothing is recorded and linked, with both SONAME and SOVERSION it is an error; (e) the build makes the links exactly if nothing but links stands in their places, then opening any of the names gives the library and nothing else has changed; otherwise it fails and what was in the way is kept; (f) with a new version beside the old one, the plain name leads to the new one, and programs linked with the old one still get the old one, or the new one if its recorded name is the same; (g) scons -c undoes the build; (h) an installed library has the same links there, and what a link at its place led to is not written to; (i) loadable modules in the top directory are named the same. Excepted (and shown): a library given with its suffix gets no version and wrong names; SONAME without SHLIBVERSION is ignored; from version 1 to 1.1 the build fails; a directory in place of the installed library; the value yes; loadable modules in subdirectories get the directory into the names.",
  "all names, versions, prefixes, suffixes and settings, all file systems before the build","all names and file systems",
  ["SCons/Tool/linkCommon/SharedLibrary.py:shlib_symlink_emitter","SCons/Tool/linkCommon/SharedLibrary.py:_soname","SCons/Tool/linkCommon/SharedLibrary.py:_get_shlib_stem","SCons/Tool/linkCommon/__init__.py:CreateLibSymlinks","SCons/Tool/linkCommon/LoadableModule.py:_get_ldmodule_stem","SCons/Tool/install.py:copyFuncVersionedLib","SCons/Defaults.py:__libversionflags"])
p("C82","Aliases collect what they are given",
  "(a) The sources of an alias are all that any Alias call gave, each once, in the order of the first mention; (b) an alias with actions executes all of them in the order given, in the environment of the last call that gave one, between what AddPreAction and AddPostAction gave after that call; (c) one without actions executes only those, and nothing if it has no sources; (d) the actions see exactly the sources of (a); (e) an alias is built exactly if something it leads to, through aliases that have a builder, was built in this run or has AlwaysBuild; (f) its signature, for a target that depends on it, tells all lists of signatures of one length apart. Excepted (and shown): an action is executed in the environment of a later call; a later call with an action drops what AddPreAction gave; AddPreAction before the sources uses the default environment; a source twice in $SOURCES; changed source files, and targets behind an alias made by Depends alone, do not start the action; aliases of values with different texts can have one signature.",
  "all histories of Alias, AddPreAction and AddPostAction calls for an alias; all trees of aliases; all lists of signatures","all histories and trees",
  ["SCons/Environment.py:Base.Alias","SCons/Node/Alias.py:Alias.build","SCons/Node/Alias.py:Alias.convert","SCons/Node/Alias.py:Alias.get_contents","SCons/Builder.py:BuilderBase._execute","SCons/Executor.py:Executor.add_sources","SCons/Executor.py:Null._morph","SCons/Node/__init__.py:Node.children_are_up_to_date"])
p("C83","Dependence on Value nodes is dependence on their texts",
  "(a) A target that depends on values is rebuilt because of them exactly if the list of their texts (str()) is another than in the last run, whatever other values the scripts use, provided values with the same hash have the same text; (b) two Value calls with the same value and name give one node, however much is between them; (c) read() gives what was last written to the node, before that what it was given as built value or what its builder makes, else the value itself, and neither reading nor writing to other nodes changes that; (d) a value with dependencies has the same signature exactly if its dependencies have the same. Excepted (and shown): nodes are shared by the hash of value and name without comparing the values, so Value(-1) and Value(-2) are one node in CPython and the change from one to the other is missed; what is written, or given as built value, is not part of the signature; a built value that is false is dropped if the value was named before; the text of a value and the signatures of its dependencies are not separated.",
  "all sequences of Value calls with all values; all histories of reads and writes","all values, sequences and histories",
  ["SCons/Node/Python.py:ValueWithMemo","SCons/Node/Python.py:Value.get_text_contents","SCons/Node/Python.py:Value.read","SCons/Node/Python.py:Value.write","SCons/Node/Python.py:Value.get_csig","SCons/Node/__init__.py:Node.changed","SCons/Node/__init__.py:changed_since_last_build_python"])
p("C84","The dependency trees that --tree prints show the dependencies",
  "(a) Without prune, the lines show, by their indentation, the whole tree of dependencies of the target; (b) that ends if dependencies do not go round in circles, and never if they do; (c) with prune (and for --debug=includes) the lines show a tree in which every dependency, direct or not, stands once with everything it depends on itself, and a name in brackets stands for what is shown further up; (d) that ends for every finite graph, circles or not; (e) the text printed, in plain or line-drawing style, with status or without, determines the tree, and with prune what each node depends on; (f) what is below a node are its sources, explicit and implicit dependencies, ignored ones too, with derived those that are built. Excepted (and shown): nodes of different kinds with one name (an alias and a file) are taken for the same, and the dependencies of the second are not shown; a file called [x] looks like an x shown before; with derived, what is built is not shown if only something not built depends on it; a file that is a source and an implicit dependency is shown twice.",
  "all graphs, options and targets; (e) all pairs of graphs","all graphs",
  ["SCons/Util/__init__.py:print_tree","SCons/Util/__init__.py:render_tree","SCons/Script/Main.py:TreePrinter","SCons/Node/__init__.py:Node.all_children","SCons/Node/__init__.py:Node.render_include_tree"])
p("C85","Which warnings are shown is decided by the last directive",
  "(a) A warning is shown exactly if the last directive that covers its class, through the classes above it, turns it on: first the defaults, then the --warn options, then the calls of SetOption('warn'), while the scripts are read and afterwards; (b) a warning that nothing covers is not shown; (c) some-type, made of words, turns on the class SomeTypeWarning (SCons spelled like this) and what is below it, no-some-type turns it off, unless it is mandatory or there is no such class; no-object-count and no-parallel-support are types themselves; (d) the directives of several --warn options, each with several between commas, are taken in that order; (e) a directive no-type for a mandatory warning changes nothing. Excepted (and shown): no-deprecated and no-all do turn mandatory warnings off, against the manual; the command line does not override SetOption; SetOption does not split at commas; tool-qt-deprecated of the manual names no class, and the class VisualVersionMismatch has no type.",
  "all lists of options and of SetOption calls, all classes and hierarchies; (c) all types made of words","all lists, calls and classes",
  ["SCons/Warnings.py:process_warn_strings","SCons/Warnings.py:warn","SCons/Warnings.py:enableWarningClass","SCons/Warnings.py:suppressWarningClass","SCons/Script/SConsOptions.py:SConsValues.set_option","SCons/Script/SConsOptions.py:SConsValues.__getattr__","SCons/Script/Main.py:_main"])
p("C86","The special attributes of targets and sources are the parts of their paths",
  "For a file or directory, in scripts of any directory: (a) its path, and abspath, relpath and rel_path from their starting points, read as paths, lead to the node; (b) different nodes have different paths, abspaths and relpaths; (c) file is its last name, filebase followed by suffix is file, suffix being the text from the last dot on, unless only digits follow; base followed by suffix is the path; dir leads to the directory, and dir, a slash and file lead to the file; posix is the path, windows has the same names between backslashes; (d) srcpath is the same place under the source directory of the nearest directory above that VariantDir linked, itself without one, srcdir the directory of it; (e) attributes can be combined exactly if all but the last are posix, srcpath, srcdir or dir, and mean those of the node reached. Excepted (and shown): the path of a node outside the current directory is absolute, not ../dir2/file.x as in the manual; ${TARGET.file.suffix} of the manual is an error; splitext is not os.path.splitext; base with suffix is not the path for the current directory itself, whose path is a dot; with nested variant directories srcpath goes one step.",
  "all names that files can have, all current directories and links","all paths, directories and links",
  ["SCons/Node/FS.py:EntryProxy","SCons/Node/FS.py:Base.get_path","SCons/Node/FS.py:Base.get_relpath","SCons/Node/FS.py:Base.srcnode","SCons/Node/FS.py:Dir.srcdir_list","SCons/Node/FS.py:Dir.rel_path","SCons/Node/FS.py:Dir.entry_abspath","SCons/Node/FS.py:RootDir","SCons/Util/__init__.py:splitext","SCons/Subst.py:SpecialAttrWrapper"])
p("C87","FindSourceFiles returns the files everything is made from",
  "FindSourceFiles(n): (a) every file returned is not built and is reached from a child of n through what is in directories and the sources of what is built; a file in variant directories is given by its origin; no file is returned twice; (b) all such files are returned, if of every directory it is known that it is one; (c) it returns exactly if there is no endless chain of directories and built files (like a tar file put into the directory it is made from), or of variant directories. Excepted (and shown): not all leaves of the dependency tree are returned, against the manual: headers and other dependencies of what is built are not looked at; a directory that is still an Entry is passed over the first time.",
  "all graphs of nodes, with all sources, children and variant directories","all graphs, of any depth",
  ["SCons/Environment.py:Base.FindSourceFiles","SCons/Node/FS.py:Entry.disambiguate","SCons/Node/__init__.py:Node.all_children"])
p("C88","Progress() shows what it is given every interval nodes",
  "(a) Without overwrite, and for a callable always, exactly every interval-th node evaluated leads to one text shown, or one call with this node, in order; a string is shown with every $TARGET replaced by the name of the node; (b) with overwrite, and texts of one line that end in a carriage return, the line of the terminal shows the last text and nothing else, whatever was shown before, and the lines above stay; (c) of a list of strings the k-th shown is the one at position k times interval round the list: all are shown in every stretch as long as the list exactly if interval and number of strings have no common divisor, and in the order given exactly if the interval is one more than a multiple of the number. Excepted (and shown): with interval 4 and four strings only the first is ever shown, although the manual says the strings rotate; overwrite does not erase a text without a carriage return at its end.",
  "all sequences of nodes, texts, names and intervals above 0","all sequences and texts",
  ["SCons/Script/Main.py:Progressor","SCons/Script/Main.py:Progress","SCons/Script/Main.py:BuildTask.prepare"])
p("C89","Where a run of scons starts",
  "(a) Several -C options lead where they would lead one after the other: an absolute one anywhere, a relative one from where the ones before led; (b) without -u, -D, -U the run is in the directory the -C options lead to and reads the files of -f, or else the first of SConstruct, Sconstruct, sconstruct, SConstruct.py, Sconstruct.py, sconstruct.py that is there, in the directory or at the same place in a repository; without one it is an error; (c) with -u, -D or -U it is in the nearest directory, at or above that one, in which such a file is, and the path put before the targets leads from there back to where the -C options lead; (d) if there is none on the way up it is an error, (e) unless -C or -f is given, or a repository has one: then the run stays in the current directory and reads what is there. Excepted (and shown): a directory that cannot be entered is only complained about, and the SConstruct of the current directory is built; with -u and -C to a place without an SConstruct above it the one of the current directory is built; climbing never looks in the repositories; -u with an absolute -f stays where it is.",
  "all directories, sets of files, -C, -f and -Y options","all file systems and lists of options",
  ["SCons/Script/Main.py:_main","SCons/Script/Main.py:_SConstruct_exists","SCons/Script/Main.py:_create_path","SCons/Script/Main.py:KNOWN_SCONSTRUCT_NAMES"])
p("C90","Package and path variables",
  "After Variables.Update (a) a PackageVariable is False if its text is one of 0, no, false, off, disable in any case, if it is one of 1, yes, true, on, enable, search in any case True, or the default if this is not itself one of these words, and otherwise the text itself, and a text that is the value, if not empty, is an existing path; (b) with this variable alone Update fails only if the value would be a path that does not exist; (c) the value survives Save and loading, if it is a boolean or a path without white space; (d) a PathVariable is exactly what is given, and its expansion is what the validator asks for: a directory, a file, existing; (e) Update fails only if it is not. Excepted (and shown): as the default the words count only in lower case: with the default Yes the variable cannot be enabled nor left alone, with the default No it cannot be enabled; with the boolean False as default, enabling words leave it False.",
  "all values given on the command line, in files or by default, all file systems","all texts and file systems",
  [VAR+"PackageVariable.py:PackageVariable",VAR+"PackageVariable.py:_converter",VAR+"PackageVariable.py:_validator",VAR+"PathVariable.py:_PathVariableClass"])
p("C91","Split, Flatten and command-line variables",
  "(a) Split of a string is exactly the list of its words: without white space in them, not empty, in order, with white space between; (b) Split of a list is the list with every element as it is, and of another object the list of it; (c) Flatten gives exactly the values that are not sequences, from left to right, however deeply they are nested, and flattening again changes nothing; (d) a string added to a command-line variable (CLVar) with +, += or from the left comes as its words after, or before, what is there, a list element by element, and nothing already there is split; (e) the text of such a variable splits into the same variable exactly if all its elements are words (an element with a blank does not survive, as shown).",
  "all strings, all nested lists, all variables","all strings and depths of nesting",
  ["SCons/Util/__init__.py:Split","SCons/Util/__init__.py:CLVar","SCons/Util/__init__.py:flatten","SCons/Util/__init__.py:do_flatten","SCons/Environment.py:SubstitutionEnvironment.Flatten"])
