TM='TMModel (Taskmaster, Task)'
method={
'C01':(TM,'inductive invariant over reachable states of the task machine, any schedule of completions'),
'C02':(TM,'invariant: states only move forward; count of executions'),
'C03':(TM,'invariant relating failed nodes to waiting parents'),
'C04':(TM,'invariant after stop()'),
'C05':(TM,'counting invariant (ref_count = unexecuted children) and completeness of the candidate search'),
'C06':(TM,'lexicographic measure over candidates and pending children'),
'C07':(TM,'counting argument: a node left pending with nothing running lies over a cycle'),
'C08':(TM,'invariant: side-effect nodes serialised by waiting_s_e'),
'C09':('JobModel (NewParallel._work) and LegacyModel (LegacyParallel, Worker, ThreadPool) over TMModel','invariant over all interleavings'),
'C10':('JobModel, LegacyModel','multiset invariant: every task is in exactly one place'),
'C11':('JobModel, LegacyModel','progress: from every reachable state some thread can step; wake-up invariant; termination by a lexicographic measure over node states, outstanding tasks and thread positions'),
'C12':('DecModel','store/load round trip of build information'),
'C13':('DecModel','equivalence of the loop with a declarative condition, list induction'),
'C14':('DecModel','alignment of recorded and current dependency lists'),
'C15':('DecModel','non-interference'),
'C16':('DbModel (dblite)','prefix case analysis over file-system steps; history induction'),
'C17':('DbModel','refinement to a finite map over operation histories'),
'C18':('DbModel (SConsign.DirFile)','prefix case analysis'),
'C19':('CacheModel','invariant over all interleavings of pushing, fetching, dying processes'),
'C20':('CacheModel','loop invariant'),
'C21':('CacheModel','injectivity of the key text'),
'C22':('SubstModel','induction over fuel and tokens'),
'C23':('SubstModel','induction over well-formed strings'),
'C24':('SubstModel','measure: variables not yet being expanded'),
'C25':('SubstModel','induction over balanced strings'),
'C26':('EnvModel','induction over operation histories on a heap'),
'C27':('EnvModel','refinement to layered dictionaries'),
'C28':('EnvModel','list induction'),
'C29':('PathsModel','list induction'),'C30':('PathsModel','list induction'),
'C31':('FsModel','refinement of the lookup tables to canonical paths'),
'C32':('FsModel','induction over common prefixes'),
'C33':('CacheModel (hashing part)','induction on chunks'),
'C34':('StatusModel','fold invariant'),
'C35':('LockModel','invariant over interleavings, with crashes'),
'C36':('ScanModel','worklist invariant: visited = reachable; termination measure'),
'C37':('PathListModel','history invariant'),
'C38':('CppModel','simulation of the directive automaton by a nested-group semantics'),
'C39':('RepoModel','induction over the search list'),
'C40':('ExitModel','induction over call trees'),
'C41':('IncrModel over DecModel','history invariant: the database only vouches for what a clean build gives'),
'C42':('CacheModel, DecModel','induction over histories of pushes and fetches'),
'C43':('EnvModel','case analysis over value kinds'),
'C44':('StatusModel','induction over action lists'),
'C45':('CondModel','structural induction over expressions'),
'C46':('DecModel','as C13 with one decider per dependency'),
'C47':('ActionModel','induction over action trees'),
'C48':('ActionModel','congruence and cancellation over action trees'),
'C49':('ActionModel (Executor)','list induction'),
'C50':('CleanModel','induction over directory trees and task lists'),
'C51':('QuoteModel','induction over characters against a shell word grammar'),
'C52':('CloneModel','heap separation invariant over histories'),
'C53':('JobModel','invariant over interleavings with signals, decreasing measure'),
'C54':('VarModel','induction over assignments; round trip of the saved text'),
'C55':('BldModel','invariants over histories of calls'),
'C56':('NameModel, SrcModel','induction over names, over the depth of builder calls and over histories'),
'C57':('VdirModel','induction over histories of calls; invariant over runs on a disk with shared files'),
'C58':('FlagModel','FlagSpec has the documented table; each branch of the code is shown to be the longest entry matching; induction over words and over the entries merged'),
'C59':('FlagModel','DefnProps: case analysis over the forms of both values; induction over entries'),
'C60':('SconModel: stack machine with heap of frames','SconSpec: big-step rules without a stack; equivalence by simulation both ways'),
'C61':('OptModel','OptSpec: grammar of command lines and what occurrences say; invariant over the history of calls: each word left is one item, long and other words keep their order, the values of an option are its occurrences applied in order'),
'C62':('TgtModel (with OptModel for the command line)','TgtSpec: default targets since the last None, relation between names and paths, relation kept for -u; induction over the history and over the starting directory'),
'C63':('GlobModel (with lookup of TgtModel); fnmatch and os.path.split modelled too','GlobSpec: relational matching, patterns as levels, found by induction over levels; invariant of the node table during the search, strong induction over the pattern'),
'C64':('CfgModel: node states, removal before building, recorded results, modes','CfgSpec: running all commands on a scratch directory; invariant over the history: what is recorded is what the command did and the file is what it left'),
'C65':('IntModel: node memory kept between builds, taskmaster steps, Walker, clear','IntSpec: separate runs from fresh nodes; invariant: every node that remembers anything is reachable over the present children from the targets, so the walk clears it; a second invariant (signatures and includes remembered are those of the files) gives that targets are current; termination of the walk by the number of nodes not on the stack'),
'C66':('NxModel: flags execute_actions and do_store_info, QuestionTask; nodes and steps of IntModel','NxSpec: outdated with respect to the present files; invariant: what is remembered about a set of nodes closed under dependencies is what the files at the start say; used with all nodes (-n, -q) and with the nodes below one target (real run)'),
'C67':('ImcModel: scan with a stored list of implicit dependencies, memoized children, decision, records; taskmaster steps','ImcSpec: dependencies by full scan of the present files, histories; invariant over a history: the sources and implicit dependencies in a record are those a scan of the contents recorded finds, and the target is what the command made of them; so equal signatures mean equal dependencies'),
'C68':('CscModel: the regular expression as a matcher, findall, os.path.split, filedir_lookup, find_file with its memory, scan with the sort','CscSpec: lines and directives as a grammar, file names cut at slashes, first directory along a path; induction over the text line by line; uniqueness of sorted lists with distinct keys'),
'C69':('LibModel: _PathList, _stripixes, _concat_ixes, the program scanner; find_file of CscModel, adjustixes of NameModel','LibSpec: bare names, options in order, a linker that takes any library from the first directory that has one; the name the scanner looks for is prefix, bare name and suffix for plain names, by the theory of extensions (C56)'),
'C70':('WhyModel: Node.explain over the records, signatures and deciders of DecModel','WhySpec: true reasons by the old and new lists of dependencies and the four deciders; the signature found for a dependency is its own (C14b); the outcome of a decider does not depend on the state of the run, so that deciding and explaining agree'),
'C71':('CopModel: Task.execute with retrieve, push and visited under the options, the disk, the cache directory, .sconsign and the printed lines; other processes change the cache between tasks','CopSpec: a build without a cache; simulation with a sound cache as invariant; simulation of two runs for --cache-disable, NoCache and --cache-show; induction over the tasks for a second build and for -n'),
'C72':('ChmModel: chmod_func on texts of modes and bits of files','ChmSpec: chmod(1) bit by bit on clauses, and how they are written; induction over clauses and files, bits by N.testbit'),
'C73':('InsModel: a file system with links, path resolution with a link limit, the system calls, shutil copyfile/copy2/copystat/copytree/rmtree, copy_func, delete_func, copyFunc','InsSpec: the tree that is seen at a source, apart, plain; induction over depth and names with the invariant that only the destination has changed; separate proof that it succeeds; induction over the list for Delete'),
'C74':('TxtModel: str.replace, the substitutions one after the other, the action, arg2nodes for strings and nested lists, repr and pformat of a dictionary, and the signature through the subst of SubstModel','TxtSpec: replacement as a relation, templates filled in at once, joined lines; induction over the text and over the entries; repr and pformat are shown to be uniquely readable'),
'C75':('PrepModel: Task.prepare, Executor.prepare, Node.prepare, File.prepare, Dir._create, mkdir and unlink on a table of paths','PrepSpec: above, tree, there; a frame relation that is kept by every step and is transitive; invariants of the remaining nodes by induction over them'),
'C76':('PdModel: universal newlines, logical_lines, split, the comprehension of ParseDepends, Depends and _add_child','PdSpec: files as an inductive relation between text and rules, words as a relation; induction over the file, over the pieces of a line and over the rules'),
'C77':('TmpModel: TempFileMunge.__call__ with its memo on nodes, the exit handlers and quote_spaces, on a disk that is a table','TmpSpec: a reader of response files (libiberty) as a state machine; induction over the arguments; an invariant of histories by induction from the end'),
'C78':('WhModel: WhereIs, Environment.WhereIs, Detect, over a file system with links and the walk the kernel does; join and normpath as in NameModel','WhSpec: where names lead, as a relation, and what it is for a directory to have a program; induction over the search path, over components for normpath'),
'C79':('FtnModel: the three regular expressions and findall written out, F90Scanner.scan, _fortranEmitter','FtnSpec: USE, MODULE and INCLUDE statements as relations, lines and statements of a text; a general lemma about scanning a text cut into pieces, by induction over the pieces'),
'C80':('DrsModel: skip_entry_list, scan_on_disk, scan_in_memory, the loop of get_implicit_deps, get_contents_dir and get_csig over trees','DrsSpec: Below, At, Same; an invariant of the loop (what is found is reachable, what is not yet looked at is in the list), a measure for its end; induction over trees for signatures'),
'C81':('VslModel: shlib_symlink_emitter, _soversion, _soname, _get_shlib_stem, CreateLibSymlinks, copyFuncVersionedLib and the variables of setup_shared_lib_logic over texts and a map from paths to entries','VslSpec: FirstPart, Soname, Leads, Free; algebra of texts (with C56c for the name of the library), induction over the list of links'),
'C82':('AliModel: Environment.Alias, AddPreAction, AddPostAction and the multi builder as steps on the state of one alias; children_are_up_to_date over trees','AliSpec: FirstSeen, given_*, Runs; induction over histories (from the end), over trees'),
'C83':('ValModel: ValueWithMemo, Value.write, read, build, get_csig, and the comparison of signatures in changed; the hash of CPython integers','ValSpec: Faithful, Last; induction over sequences of calls (invariant: the memo leads to nodes with the same key) and over histories'),
'C84':('TreModel: print_tree and render_tree as recursion with fuel over a graph given by functions, the text of each line as code points','TreSpec: Shows (a drawing shows a tree), Unfolds, Reach; induction over the recursion with the visited names as invariant; uniqueness of the tree of a drawing by mutual induction; measure: names not yet visited'),
'C85':('WrnModel: process_warn_strings with str.title and the replacements, the list of enabled classes, opt_warn, set_option and the two times Main processes them; the classes of Warnings.py','WrnSpec: Decides, Camel, Names, Says; induction over directives and calls (processing a list again changes nothing), over words'),
'C86':('AttModel: get_path over the path elements, _abspath, os.path.relpath, Dir.rel_path, srcdir_list and srcnode, splitext, the special attributes of EntryProxy; nodes are places','AttSpec: Leads (walking a text), HasSuffix, Linked, Above; induction over places, the two cases below and outside the current directory'),
'C87':('FnsModel: build_source with the entries that disambiguate() turns into directories, final_source, the set','FnsSpec: SourceOf, Origin, Wanted, Ends (accessibility); induction over the depth of the calls and over accessibility'),
'C88':('PrgModel: Progressor with its counter and the previous text, erase_previous, spinner, string and replace_string','PrgSpec: a terminal line with a cursor, Looks, Shows (with Replaced of TxtSpec); induction over the nodes, Gauss lemma and counting for the rotation'),
'C89':('DstModel: _create_path, _SConstruct_exists, the climbing loop and the change of directory of _main','DstSpec: Led (the -C options one after the other), Nearest, Nowhere, FirstThere, on walk of NameProps2; induction over the directories above'),
'C90':('PkvModel: the converters and validators of PackageVariable and PathVariable, as variables of VarModel','PkvSpec: Enabling, Disabling, PackageValue, Acceptable; on C54_update_precedence and C54e_validated, Update computed for the converse'),
'C91':('SplModel: str.split as a scan, Split, do_flatten, flatten, CLVar with addition from both sides and its text','SplSpec: Splits (words with white space around), Leaves; induction over strings and over nested values'),
}
