#!/usr/bin/env python3
# Source of properties.jsonl: run `python3 tools/props.py > properties.jsonl`
import json
P=[]
def p(id,title,statement,quant,why,anchors):
    P.append(dict(id=id,title=title,statement=statement,quantifier=quant,why_tests_cant=why,anchors=anchors))
TM="SCons/Taskmaster/__init__.py"; JOB="SCons/Taskmaster/Job.py"; ND="SCons/Node/__init__.py"; FS="SCons/Node/FS.py"
ENV="SCons/Environment.py"; UT="SCons/Util/__init__.py"
p("C01","Dependencies before dependents",
  "Whenever the build engine hands out a task, every dependency (source, explicit, implicit, not ignored) of each of its targets has already been finished (built successfully or found up to date), whatever the order in which outstanding tasks complete.",
  "all dependency graphs, all target lists, all outcomes and completion orders of issued tasks",
  "the number of graphs and completion interleavings is unbounded; a test fixes one graph and one schedule",
  [TM+":Taskmaster._find_next_ready_node",TM+":Taskmaster.next_task",TM+":Task.postprocess"])
p("C02","Each target is built at most once per run",
  "During one run no node is ever handed out for building twice, however many targets depend on it and in whatever order tasks finish.",
  "all graphs, all schedules","requires every interleaving of considering and completing tasks",
  [TM+":Taskmaster._find_next_ready_node",TM+":Task.make_ready_current"])
p("C03","Nothing is built on top of a failed dependency",
  "With --keep-going, after a task fails, no node that transitively depends on one of the failed targets is ever handed out as a task.",
  "all graphs, all failing sets, all schedules","depends on when the failure arrives relative to graph exploration",
  [TM+":Taskmaster._find_next_ready_node",TM+":Taskmaster.will_not_build",TM+":Task.fail_continue"])
p("C04","A stopping failure issues no further tasks",
  "Without --keep-going, after a task fails (fail_stop) no further task is ever handed out, whatever remained in the work lists.",
  "all graphs, all engine states at the time of failure","any state of the candidate/pending lists at the failure point",
  [TM+":Taskmaster.stop",TM+":Taskmaster.no_next_candidate",TM+":Task.fail_stop"])
p("C05","A finished run is complete",
  "If the dependency graph is acyclic and no task fails, then when the engine reports there is no next task and none is outstanding, every requested target and everything it transitively depends on has been finished.",
  "all acyclic graphs, all target lists, all schedules","liveness/completeness over every schedule; reference-count bookkeeping can lose a node only in particular interleavings",
  [TM+":Taskmaster.next_task",TM+":Task.postprocess",ND+":Node.add_to_waiting_parents"])
p("C06","The ready-node search terminates",
  "Each request for the next task returns after finitely many steps, even for cyclic graphs, and the total number of steps of a run is bounded by the size of the graph.",
  "all graphs (cyclic or not), all reachable engine states","termination is not observable by a finite test",
  [TM+":Taskmaster._find_next_ready_node"])
p("C07","Dependency cycles are reported, and only cycles",
  "When a run ends, an error is reported if the requested targets transitively include a dependency cycle, and no cycle error is reported for an acyclic graph. What is printed as a cycle is a cycle. Nodes behind a failed task are not considered; a cycle reached only through a requested target that is itself a side effect may be missed. Excepted (and shown): with --keep-going, after a failure, the error may be raised on an acyclic graph (without any cycle being printed).",
  "all graphs, all failure patterns","needs every graph shape and failure history",
  [TM+":Taskmaster.cleanup",TM+":find_cycle"])
p("C08","Tasks sharing a side effect never run concurrently",
  "Two tasks whose targets declare a common side-effect file are never outstanding at the same time. Excepted (and shown): with --keep-going, when the side-effect file is already behind a failed task.",
  "all graphs, side-effect declarations and schedules","mutual exclusion over all schedules",
  [TM+":Taskmaster._find_next_ready_node",TM+":Task.make_ready_current","SCons/Environment.py:SideEffect"])
p("C09","Parallel builds never exceed -j N running tasks",
  "With either parallel job scheduler (the default one and the deprecated one) at most N tasks execute at once.",
  "all N, all worker interleavings","concurrency bound for every interleaving",
  [JOB+":NewParallel",JOB+":LegacyParallel"])
p("C10","The parallel scheduler loses no task and does not finish early",
  "Every task obtained from the task source by the parallel scheduler is executed exactly once and has its result recorded and post-processed exactly once, and the scheduler only reports completion when nothing is outstanding.",
  "all interleavings of any number of workers","requires every thread interleaving",
  [JOB+":NewParallel",JOB+":LegacyParallel",JOB+":ThreadPool",JOB+":Worker"])
p("C11","The parallel scheduler cannot deadlock, and the build comes to an end",
  "As long as the build is not complete some worker can take a step: there is no reachable state where all workers wait while work remains; and on a finite graph (cycles allowed) there is no endless run, however results come in and whatever fails.",
  "all interleavings of any number of workers","absence of deadlock is a property of every interleaving",
  [JOB+":NewParallel._work",JOB+":LegacyParallel.start",JOB+":ThreadPool"])
p("C12","A build followed by no change rebuilds nothing",
  "If a target was built and its build information stored, and afterwards its content, its dependency list, the dependencies' content and its action are unchanged, the next up-to-date check says up to date (content-signature decider). Excepted (and shown): a target for which the same node was passed to both Depends() and Ignore() is never up to date.",
  "all targets, dependency lists, contents","all dependency lists and contents",
  [ND+":Node.changed",ND+":Node.get_binfo",FS+":File.changed_content",FS+":File.is_up_to_date"])
p("C13","Every relevant change triggers a rebuild",
  "With the content decider, a target whose stored build information differs from the current one in the number of dependencies, in any dependency's content signature, or in the action signature is reported out of date; a target that does not exist is always out of date.",
  "all targets, stored and current build informations","quantifies over all pairs of stored and current states",
  [ND+":Node.changed",FS+":File.changed_content",FS+":File.is_up_to_date"])
p("C14","Each dependency's content is compared with the signature recorded for that same dependency",
  "When deciding whether a target is out of date, the recorded signature a dependency is compared with is the one that was recorded for that dependency, also when dependencies have been added, removed or reordered since the last build (MD5-timestamp decider). Excepted (and shown): targets for which the same node was passed to both Depends() and Ignore().",
  "all old and new dependency lists","all permutations/edits of dependency lists",
  [FS+":File.changed_timestamp_then_content",FS+":File._get_previous_signatures"])
p("C15","Ignored dependencies never force or alter a rebuild",
  "A dependency passed to Ignore() for a target contributes nothing to the decision to rebuild that target. The state of an ignored node on disk is irrelevant in all cases, and if no ignored node was also passed to Depends() everything is as if it were not a dependency. Excepted (and shown): a node passed to both Depends() and Ignore() changes the information recorded for the target, which is then never up to date.",
  "all dependency lists and ignore sets","all combinations of Depends/Ignore/sources",
  [ND+":Node.get_binfo",ND+":Node.children",ND+":Node.changed"])
p("C16","The signature database survives a crash",
  "If the process dies at any point while the .sconsign database is being saved, the next run reads either the complete previous content or the complete new content, never a mixture or a truncated file.",
  "all database contents, all crash points","every crash point of every save",
  ["SCons/dblite.py:_Dblite.sync","SCons/dblite.py:_Dblite._check_writable"])
p("C17","The signature database is a map: close and reopen returns what was last stored",
  "After any sequence of set and delete operations on an open database followed by close, reopening it yields exactly the mapping those operations describe. Excepted (and shown): deletions that are not followed by any assignment or explicit sync before the close are lost.",
  "all operation sequences","all histories",
  ["SCons/dblite.py:_Dblite.__setitem__","SCons/dblite.py:_Dblite.__delitem__","SCons/dblite.py:_Dblite.close"])
p("C18","Per-directory signature files survive a crash",
  "If the process dies while a per-directory .sconsign file is being written, or system calls on it fail, the next run finds the complete old signatures, the complete new ones, or none at all, never a mixture; after a write that was not interrupted it finds the new ones. 'None at all' does happen (shown): the old file is unlinked before the new one is renamed.",
  "all contents, all crash points","every crash point",
  ["SCons/SConsign.py:DirFile.write"])
p("C19","Cache entries are all-or-nothing",
  "Any process reading the derived-file cache, at any moment and whatever other SCons processes are pushing or crashing, sees for each signature either no entry or a complete file that some process pushed for that signature.",
  "all numbers of concurrent pushers, all interleavings, all crash points","interleavings and crash points are unbounded",
  ["SCons/CacheDir.py:CacheDir.copy_to_cache","SCons/CacheDir.py:CachePushFunc"])
p("C20","Multi-target cache retrieval is all-or-nothing",
  "If a build step has several targets and some are missing from the cache, none of the retrieved files is kept: all targets are rebuilt; the step is reported as fetched only if every target came from the cache.",
  "all target lists, all cache contents","all subsets of cached targets",
  [TM+":Task.execute"])
p("C21","Cache keys depend on everything that determines the output",
  "Two build steps get the same cache key only if target path, action signature and the ordered list of dependency content signatures are the same (up to hash collisions). Excepted (and shown): target paths containing a comma followed by a space.",
  "all pairs of build steps","quantifies over pairs of inputs",
  [FS+":File.get_cachedir_bsig","SCons/Util/hashes.py:hash_collect","SCons/CacheDir.py:CacheDir.cachepath"])
p("C22","Substitution leaves text without $ unchanged",
  "Expanding a string that contains no $ yields the same string (in string mode, modulo the documented white-space compression).",
  "all strings, all environments","all strings",
  ["SCons/Subst.py:scons_subst","SCons/Subst.py:StringSubber"])
p("C23","$$ always denotes one literal dollar sign",
  "In any string every $$ outside other expansions is replaced by a single $ that is not expanded again. Excepted (and shown): next to a stray $ not followed by a name, before parentheses in command-line mode, in list arguments and in strings used for signatures.",
  "all strings, all environments","all strings",
  ["SCons/Subst.py:StringSubber.expand"])
p("C24","Variable expansion always terminates",
  "Expansion of any string in any environment terminates, including self-referential and mutually recursive definitions. Callables must not return callables endlessly. Excepted (and shown): dotted expressions in braces which are not attribute accesses of a variable.",
  "all strings, all environments","termination",
  ["SCons/Subst.py:StringSubber.expand","SCons/Subst.py:StringSubber.substitute"])
p("C25","$( ... $) text never influences build signatures",
  "Text between $( and $) (balanced, also produced by expansion) is absent from the string used for action signatures and present, without the markers, in the executed command. Excepted (and shown): nested $( $) pairs in scons_subst_list.",
  "all token sequences","all nestings and positions",
  ["SCons/Subst.py:_rm_list","SCons/Subst.py:_remove_list","SCons/Subst.py:scons_subst"])
p("C26","Override environments never modify their parent",
  "No sequence of item assignments, deletions, updates, Append/Replace calls on an override environment changes what the parent environment returns for any variable. Excepted (documented, and shown): Append/Prepend calls which change in place a list or dictionary inherited from the parent.",
  "all operation sequences","all histories",
  [ENV+":OverrideEnvironment"])
p("C27","An override environment behaves like a dictionary layered over the parent",
  "After any sequence of assignments and deletions, lookup, membership, key listing and the dictionary view of an override environment agree with each other and with a plain copy of the parent on which the same operations were made. Excepted (and shown): after deleting a variable twice, or setting a deleted variable again with Replace, update or setdefault, the dictionary view disagrees; substitution does not see deletions.",
  "all operation sequences","all histories",
  [ENV+":OverrideEnvironment.__getitem__",ENV+":OverrideEnvironment.__delitem__",ENV+":OverrideEnvironment.Dictionary"])
p("C28","AppendUnique and PrependUnique never introduce duplicates",
  "AppendUnique/PrependUnique on a list-valued variable add only values not already present, keep the existing ones, and place the result at the documented end; with delete_existing the value is moved.",
  "all existing and added lists","all lists",
  [ENV+":Base.AppendUnique",ENV+":Base.PrependUnique"])
p("C29","PrependPath/AppendPath put new directories at the right end without duplicates",
  "PrependPath/AppendPath return a path whose entries are the new ones followed (preceded) by the old ones, each distinct entry once, an entry that is both new and old being moved or (delete_existing=False) kept in place; the caller's arguments are not modified. Excepted (and shown): with delete_existing=False PrependPath reverses the caller's list and keeps the last of equal new entries, and AppendPath keeps duplicates among the old ones.",
  "all path lists","all lists",
  ["SCons/Util/envs.py:PrependPath","SCons/Util/envs.py:AppendPath","SCons/Util/envs.py:AddPathIfNotExists"])
p("C30","Removing duplicates keeps first occurrences in order",
  "uniquer_hashables and UniqueList keep each distinct element exactly once, in order of first occurrence, whatever sequence of operations produced the UniqueList; unique returns each distinct element exactly once, in an unspecified order. Excepted (and shown): a UniqueList constructed from a list with duplicates, positional operations after unread appends, and unique on elements whose order is partial.",
  "all lists","all lists",
  [UT+":uniquer_hashables",UT+":unique",UT+":UniqueList"])
p("C31","File node identity is path identity",
  "Looking up two path strings (relative to any directory, with ., .., repeated slashes, leading #) yields the same node if and only if they denote the same normalised absolute path. Excepted (and shown to behave differently): a string of two or more slashes only, and strings containing a newline.",
  "all path strings, all lookup histories","all strings and lookup histories",
  [FS+":FS._lookup",FS+":RootDir._lookup_abs"])
p("C32","rel_path is correct",
  "For any two directories, the relative path computed from one to the other leads to the other when resolved from the first; looking it up in the first returns the other node (except when the first name on the way begins with #, or a name contains a newline). The same holds for the path printed for a node relative to a directory.",
  "all pairs of directories","all pairs of paths",
  [FS+":Dir.rel_path"])
p("C33","Chunked hashing equals hashing the whole file",
  "The content signature of a file does not depend on the chunk size used to read it nor on whether it is hashed whole.",
  "all contents, all chunk sizes","all contents and chunk sizes",
  ["SCons/Util/hashes.py:hash_file_signature",FS+":File.get_csig"])
p("C34","Exit status reflects failures",
  "Without --ignore-errors the exit status of a run is zero if and only if no task failed; it is the status of the last failing task (2, or the argument of an explicit Exit() in an action). Excepted (and shown): a task whose action calls Exit(0) counts as failed but gives status zero, even after other failures with --keep-going.",
  "all task outcome sequences","all histories",
  ["SCons/Script/Main.py:BuildTask.do_failed","SCons/Script/Main.py:BuildTask.failed"])
p("C35","The lock file gives mutual exclusion",
  "At any moment at most one holder has a write lock on a given file, whatever the interleaving of acquirers, and releasing makes it acquirable again. Excepted (and shown): a holder that is killed, and a holder that was given file descriptor 0, never release.",
  "all numbers of processes and interleavings","interleavings",
  ["SCons/Util/filelock.py:FileLock"])
p("C36","Implicit-dependency scanning finds the whole include closure and terminates",
  "The implicit dependencies of a node are exactly the files reachable through recursive scanning, also when files include each other cyclically; scanning stops; every target ends up with each of them once, whatever was scanned before and whatever the order of the include lines. Excepted (and shown): scanners that disagree on whether to recurse into a file; a file read by two scanners of different languages; the command dependencies of a target that has no sources.",
  "all include graphs, scanners, scanning histories","all graphs and histories",
  [ND+":Node.get_implicit_deps",ND+":Node.scan","SCons/Executor.py:Executor.scan","SCons/Scanner/__init__.py:Classic.scan",FS+":File.get_found_includes"])
p("C37","Path-list caching does not change results",
  "Substituting a search-path variable through the path-list cache gives the same result whatever other lookups were made before. Excepted (and shown): an earlier lookup of the same string with the other value of `split`.",
  "all lookup histories","all histories",
  ["SCons/PathList.py:_PathListCache"])
p("C38","Conditional preprocessing selects exactly the active branch",
  "When scanning for #include lines with conditional evaluation, the directives honoured, and so the files found, their order and the macros defined, are exactly those in the groups an ISO C preprocessor would select, for arbitrarily nested #if/#elif/#else/#endif and included files; each file is read at most once and not below the depth limit; scanning ends. Excepted (and shown): a condition inside a skipped group is evaluated and may raise; #include of a macro defined as itself does not end; #include_next is not recognised; two comments on one line swallow what is between them.",
  "all well-nested files, all include graphs, all valuations of the conditions","unbounded nesting of groups and files",
  ["SCons/cpp.py:PreProcessor","SCons/cpp.py:DumbPreProcessor"])
p("C39","Files are searched in repositories in order",
  "A file that does not exist locally is taken from the first repository (in declaration order) that has it; a local file always wins; FindFile returns the first hit along the path, each directory's repositories before the next directory; a Repository call is seen by all later lookups. Excepted (and shown): a directory of the same name that has been looked up; rentry with an existing node; build directories outside the top directory; VariantDirs leading into each other; FindFile after a later declaration of a target.",
  "all repository lists, disk contents, lookup histories","all configurations and histories",
  [FS+":File.rfile",FS+":File.find_repo_file",FS+":Dir.get_all_rdirs",FS+":FileFinder.find_file",FS+":FS.Repository"])
p("C40","At-exit functions run once each in reverse order of registration",
  "Functions registered for exit are called exactly once in LIFO order, including ones registered while exit functions run, unless one raises an exception (the remaining ones are then not called).",
  "all registration sequences","all sequences",
  ["SCons/exitfuncs.py:_run_exitfuncs"])
exec(open(__file__.replace("props.py","props_more.py")).read())
for x in P: print(json.dumps(x))
