## Findings
Each `_refuted` theorem in the table is a behaviour of the pinned code that contradicts the unrestricted property; the English
statement of the property names it as an exception.  Seen while reading, not formalised:

* `scons -c -n` prints "Removed" for targets that do not exist; `ListAction.get_varlist` counted twice in signatures (harmless).
* `Literal` containing `$$` or `$(` is altered by scons_subst; white-space compression is skipped on the `$`-free fast path.
* NewParallel: an exception escaping from a taskmaster callback leaves the state SEARCHING, other workers wait for ever.
* SConsign.DirFile.write uses `mode` unbound if stat failed and rename fails; NOFILE marker collision.
* CacheDir.copy_to_cache: `if not st | S_IWRITE` is never true.
* File.get_text_contents: the UTF-16LE BOM is checked before the UTF-32LE one.
* `_macro_conv` splits on every `=`; PrependUnique/AppendUnique of a scalar string with delete_existing=True raises TypeError.
* OverrideEnvironment: the check for reserved names is skipped; the `_gsm` memo is shared; `setdefault` on a base environment bypasses checks; get_env_bool(int(None)) raises.
* cpp.py: `#include FOO(x)` with FOO undefined raises KeyError; `#include "x"` is relative to the top file only; C23 `#elifdef` is mis-parsed; `!A == B` is parsed with Python's precedence.
* str() of a ListVariable value sorts it in place; a Builder with an emitter deletes the executor made by an earlier AddPreAction; calling a multi and batch builder twice for a target hits an assert.
* get_src_builders is memoised by id(env): a builder replaced in $BUILDERS afterwards is not noticed, and the id may be reused by another environment.
* VariantDir (C57, proved): `_hardlink_func` has the isabs test inverted, so a source that is a relative symbolic link is resolved from the current directory (wrong file linked, if there is one of that name); with -n exists() still unlinks copies without source (fs.unlink instead of the Unlink action); a Precious target, or a copy that cannot be removed, is written through a shared file into the source; VariantDir accepts two directories as variants of each other, after which exists() recurses for ever; the duplicate argument of nested variant directories depends on the order of calls.
* ParseFlags/MergeFlags (C58, proved): an empty quoted word raises IndexError; a two-word option at the end of a string or list element is silently lost and its argument becomes a library; `-std=c++..` goes to CXXFLAGS although documented otherwise; -F, -dylib_file, --param are undocumented; MergeFlags with a string as old value inserts it into the caller's list (so it leaks into the next environment merged), a tuple raises AttributeError or becomes a nested element, a deque raises TypeError.
* CPPDEFINES (C59, proved): Prepend of several macros reverses them; AppendUnique does not recognise ("FOO",1) and "FOO=1", "A=b=c" and ("A","b=c"), ("A",) and "A", nor duplicates inside the list added; the example of Environment.xml 718-731 gives -DMACRO1=MACRO2; a scalar that is not a string (int, File) is dropped without a message.
* VariantDir: a source that is a symbolic link to its own variant copy is replaced by a link to itself when linked (not formalised).
* SConscript (C60, proved): Return() in a script read from standard input (`-f -`) raises SConscriptReturn past the reader: uncaught at top level, and silently ending the caller below it; Return inside `try/except Exception` is swallowed; Return of a function's local variable fails although Export of it works; SConscriptChdir(False) in a called script leaves the process in that script's directory. Not formalised: `globals.update({__file__: old_file})` uses the value of the module's `__file__` as the key.
* Options (C61, proved): `--foo a --bar b` with two project options ends with status 2 (the argument of the held-back long option is read before it; documented as undefined); a word `-` makes reparse_local_options stop, so GetOption gives defaults for project options after it; `--foo=a -fb` gives a or b depending on whether another AddOption came first; append options with a list default (and `--debug`, `--warn`) modify the default in place, so SetOption overrides the command line; SetOption('hash_chunksize') is stored as md5_chunksize and GetOption('hash_chunksize') raises; SetOption('implicit_deps_changed'/'implicit_deps_unchanged') is read back but has no effect (Main.py 1042 is before the scripts are read). Not formalised: SetOption('duplicate') takes effect at once even if the command line gives --duplicate; the default of --hash-chunksize is in bytes but is multiplied by 1024 (Main.py 1212).
* Target selection (C62, proved): `scons -- foo` sets COMMAND_LINE_TARGETS and BUILD_TARGETS to foo but builds the Default targets (Main.py 1256 looks only at the words before `--`); `-U` drops a directory that the script of its parent names with Default (Dir.cwd is the directory itself, FS.py 1654); `-U` without any Default call stops with "No targets" where `-u` builds the directory; names that a SConstruct adds to BUILD_TARGETS mean files relative to the starting directory under -u/-D/-U. `_Remove_Target`, `_Remove_Argument` have no caller that matters to selection.
* Glob (C63, proved): the argument `source` is never used (FS.py 2289-2352), so the documented choice between variant and source nodes does not exist; `exclude` compares with fnmatch, taking the names found as patterns, so `a[1].c` cannot be excluded by `a*`; `Glob('#*.c')` looks for names that begin with # in the current directory (no directory part, 2266); `Glob('nodir/*')` makes a Dir node that `Glob('*')` then returns; an editor's file `#f.c#` makes, from the second Glob on, a node `f.c#` of a file that does not exist (selfEntry, 2321); `Glob('src/')` is an IndexError (pattern[0] of the empty string, 2337); nodes with the same string (variant_dir with duplicate=0) come in set order; VariantDir chains are not searched transitively, so the result depends on earlier Globs.
* Configure (C64, proved): BuildNodes sets max_drift to 0 (SConf.py 573), so a header that was changed after the last build counts as unchanged and the test is answered from the cache for one more run (the project's own test/Configure/conftest_source_file.py records this behaviour); collect_node_states does not look whether files exist, so after `rm -r .sconf_temp` (with .sconsign.dblite kept) the text of a test is `up to date', compiling it fails, and the failure is recorded for good; with --config=cache Task.prepare has already removed the files of a test whose sources changed, so TryRun returns (1, '') and a later --config=auto fails although nothing differs any more.
* Interactive mode (C65, proved): do_build clears the nodes found by a walk over children only. (1) Nodes named by Requires are not children: after `build prog`, a changed source of a prerequisite is not noticed by the next `build prog`. (2) The other targets of an action with several targets are not cleared: `build a`, edit the source, `build b` does nothing. (3) A file that was included by the old version of a generated header, but not by the new one, is looked at during the build and not found by the walk: its old signature is used in later builds, and another target that includes it is taken for up to date after it has changed.
* scons -n (C66, proved): after a target has been `built' under -n its signature is that of the old file, so targets made from it are compared with the old contents: when a.c has changed and a.o exists, -n lists the compilation and not the link that a real run does next; and when a generated file on disk is not the one its users were built from, -n lists the users although a real run, which makes the file as before, leaves them alone.
* --implicit-cache (C67, proved): when the stored list of implicit dependencies turns out to be outdated, Node.scan empties `implicit` without forgetting the memoized list of children; if the new scan finds nothing, the old implicit dependencies are still waited for and built. A source that no longer includes a generated header whose command now fails cannot be compiled with --implicit-cache, although it can without.
* C scanner (C68, proved): in the regular expression of the C scanner the name in quotes or angle brackets may go on over the ends of lines; a line such as `#include <old` in a comment, without its closing character, swallows the text up to the next > or ", so the next #include line is lost as a dependency. #include_next, a comment before the name and continued lines are not seen.
* LIBS (C69, proved): options and dependencies disagree for some names. LIBS=['libfoo.so'] becomes -lfoo, so the linker may take libfoo.a from an earlier directory, on which the program does not depend; foo.bar becomes -lfoo.bar but the scanner, taking .bar for the suffix, looks for libfoo.bar; '-lfoo' and, with gnulink, ':libfoo.so.1' are linked but are no dependencies; a string is cut at colons for the linker (not at all with gnulink) and at white space for the dependencies; a library called lib (liblib.a) is dropped from the command line.
* --debug=explain (C70, proved): a file that was only a source in the last run has a record without `bact`; if it is now a target without dependencies, Node.explain fails with an AttributeError and so does the build of the target, only because of --debug=explain. A target with an explicit dependency that is also ignored is rebuilt in every run, "for unknown reasons" (see C15).
* CacheDir options (C71, proved): `scons -n` removes files: when a command has several targets of which the first are in the cache and another is not (for instance because of NoCache), Task.execute unlinks the targets it has pretended to fetch, with os.unlink, not an Action, so also under -n, where nothing was fetched and the files are those of the last build. --cache-force stores a target that was changed by hand (SCons never looks at the contents of an up-to-date target), and every other user of the cache then gets it. get_CacheDir creates the cache directory and its config file under -n, --cache-readonly and --cache-disable.
* Chmod (C72, proved): with "=" chmod_func passes only the new bits to os.chmod, so a clause such as u=rw takes away all permissions of group and others, and of u=rwx,g=rx,o=rx only o=rx is left, so that the owner can no longer read the file; "+x" without a class does nothing; "u+r=" and "xyz=" are accepted and leave no permission at all; a syntax error in a later clause is found only after the earlier clauses have been applied.
* Install and Copy (C73, proved): Install of a directory never removes what is no longer in the source; it writes through symbolic links in the destination, so that files outside are overwritten; where the destination has a directory and the source a file, shutil.copy2 silently puts the file inside (dst/x/x); files inside are not made writable, which copyFunc does for single files (and promises in its doc string); copyFunc of a file onto an existing directory copies into it and then gives the directory the mode of the file. copy_func(symlinks=False) calls itself without passing symlinks on, so a link to a directory is followed but the links inside are recreated.
* Textfile and Substfile (C74, proved): LINESEPARATOR is in the varlist of the action, but SUBST_SIG strips whitespace, so that a change from a newline to CR LF, or to two newlines, is not noticed and the old file stays. SUBST_DICT given as a dictionary is put into the signature by pprint without expansion: with {'@v@': '$VERSION'} a change of VERSION is not noticed (with a list of pairs it is). pprint sorts, so the order, on which the text depends when keys interact, is not in the signature. FILE_ENCODING is not in the varlist. A value with an unbalanced $( makes the signature raise UserError though the text could be written. A string given to Textfile that is the name of an Alias becomes the Alias node, which has no get_text_contents.
* Preparation (C75, proved): Task.prepare checks the dependencies of one target after it has removed the file of the one before, so that with several targets a missing explicit dependency of the second costs the first its old file. Dir._create ignores FileExistsError, so a dangling symbolic link in place of the directory of a target is not noticed, and Dir.exists is true for a file. Executor.prepare looks at ignored sources and at those of up-to-date targets too.
* ParseDepends (C76, proved): logical_lines removes backslash-newline without putting a blank, so that "b.h\\" followed by "c.h" in the first column is the one file b.hc.h (make reads two). A line is a comment only if # is its first character. Double-colon rules and assignments with := make dependencies on ":" or "=". With only_one the number of target words is counted, so the empty rules of gcc -MP, or one target named twice, are an error.
* TempFileMunge (C77, proved): quote_spaces writes nothing for an empty argument and does not protect newlines, quotes or backslashes. subst_list(...)[0] is only the first line of the command: if it is long the other lines are never run. The memo is keyed by the first target and the unexpanded command. The length that is compared does not count the quotes of the shell. The temporary file is also made under -n.
* WhereIs (C78, proved): the result is normalized after it was tested, so with a symbolic link before ".." it can be another file, and a reject list is compared with what is not yet normalized. Only the execute bit of the owner counts, whoever runs scons. Environment.WhereIs(" ") raises IndexError from CLVar(" ")[0].
* Fortran (C79, proved): the lookahead that excludes MODULE PROCEDURE, MODULE FUNCTION and so on has no word boundary, so that a module called pure_math or functions is not seen as defined: no target for its module file, no order between its users and it, and a source that defines and uses it waits for a file nobody makes. "! x ; use old" depends on old.mod. USE & with the name in the next line is not seen.
* Directories as sources (C80, proved): get_contents_dir separates entries by newlines and does not escape names, and a file and a directory with the same signature text are not told apart. scan_on_disk gives nothing at all when listdir fails, also when targets in the directory are known. A target inside the directory it is made from depends on itself (reported as a cycle).
* Versioned libraries (C81, proved): _get_ldmodule_stem takes str(target), with its directory, so LoadableModule('mods/foo', SHLIBVERSION='1.2.3') records -soname=libmods/libfoo.so.1 and makes its links in mods/libmods. SharedLibrary('libfoo.so', SHLIBVERSION=...) builds libfoo.so with the recorded name libfoo.so.so.1. SONAME and SOVERSION are ignored without SHLIBVERSION (documented to depend on it only for the flags). Going from SHLIBVERSION 1 to 1.1 fails with OSError because the old library stands where the link is to be. copyFuncVersionedLib swallows the error of os.remove, so with a directory in place the library is put inside it and the installed links lead to the directory.
* Aliases (C82, proved): Environment.Alias with a second action makes a new executor with all actions and the environment of that call (Environment.py 2508-2518), so the first action is executed in the second environment, and what AddPreAction or AddPostAction had attached is lost. AddPreAction on an alias without sources makes an executor without environment, which stays: its action uses the default environment. Alias.get_contents joins the signatures of children without separator; signatures of Value nodes are their texts, so different values can give one signature.
* Value nodes (C83, proved): ValueWithMemo keys its memo by hash((value, name)) and never compares the values (Node/Python.py 197-208): Value(-1) and Value(-2), or n and n + 2**61 - 1, are one node, with the text of the first one named, and a script that changes from one to the other does not rebuild if both are named. The test `if built_value` ignores built values that are false once the value is in the memo.
* Printed trees (C84, proved): print_tree and render_tree remember what they have visited by str(node), so an alias and a file with one name are taken for one node and the second is cut off in brackets. all_children does not remove duplicates between sources, depends and implicit, although its comment discusses it.
* Warnings (C85, proved): process_warn_strings refuses to turn off a class below MandatoryDeprecatedWarning, but not one above it, so --warn=no-deprecated silences mandatory warnings, which the manual denies. --warn extends the default list in place, so the command line is not in SConsValues.__dict__ and a SetOption('warn') hides it when Main.py 1148 processes options.warn again: the script has the last word, against the rule stated in SConsValues. SetOption does not split its string at commas. ToolQtDeprecatedWarning does not exist.
* Special attributes (C86, proved): `$TARGET` of a file outside the top directory is an absolute path (get_path falls back to all elements), the manual shows ../dir2/file.x; `${TARGET.file.suffix}`, which the manual names as a combination that works, raises AttributeError, because file gives a SpecialAttrWrapper; Util.splitext says it is os.path.splitext, but treats .profile and lib.so.1 differently; `${x.base}${x.suffix}` is not the path of the current directory.
* FindSourceFiles (C87, proved): build_source checks isinstance(s, Dir) before disambiguate(), so a directory that is still an Entry is passed over at the first visit, and looked into at later ones; headers and Depends() of built files are not returned, although the manual says all leaf nodes are; a target inside a directory it is made from makes it recurse without end.
* Progress() (C88, proved): the spinner indexes the list with the number of nodes, not of texts shown, so a list with as many strings as the interval never moves; erase_previous writes blanks before the carriage return, so a previous text that does not end in one is not erased.
* Where a run starts (C89, proved): a failed chdir (-C typo) only prints a message and the run goes on in the current directory; -u -C /other without an SConstruct at or above /other runs the SConstruct of the current directory with target_top other/.; climbing looks only at absolute paths and so never in the repositories.
* PackageVariable (C90, proved): _converter compares the default with the words without lower(), so the defaults Yes, No, True, ... are taken for paths when the variable is enabled, and Update fails; a default of boolean False is given back for an enabling word.
