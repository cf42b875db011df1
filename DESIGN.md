# A Rocq (Coq 8.16.1) model of zielen (lostatc/retain-sync)

## 1. What is modelled, and how

The model is a set of computable Gallina functions that mirror the Python code
branch by branch, exceptions as values.  Layers:

| File(s)                | Code modelled |
|------------------------|---------------|
| `Str`, `PosixPath`, `Path`, `PySort` | Python `str` as a list of code points; `posixpath` (join, dirname, basename, splitext, normpath, commonpath, relpath) as used by the program; relative paths as component lists; `list.sort` |
| `Utils`                | `utils.timestamp_path`, `utils.get_path_ancestry` |
| `Table`                | `utils.BoxTable` |
| `ProfileGen`           | the configuration file in `Profile.generate` (template, prompt, writing) and the `list` command |
| `Config`, `Timestamp`  | `containerbase.ConfigFile`, `profile.ProfileConfigFile`, the typed getters of `Profile`, `Profile._convert_epoch/_convert_timestamp` |
| `DBTables`             | `SyncDBFile`, `ProfileDBFile`, `RemoteDBFile` at the level of SQL tables (nodes, closure, collisions) with an arbitrary hash and arbitrary salts |
| `DBSpec`               | the same databases as maps from paths to data; `DBRefine` proves that the tables refine the maps |
| `Mon`                  | state, exceptions and crash points; the rules to reason about runs |
| `FS`                   | file trees, system calls used by the program, and `shutil.copy2/rmtree`, `os.makedirs` |
| `Fstools`              | `fstools.scan_tree/transfer_tree/symlink_tree/is_unsafe_symlink/update_mtime` |
| `Glob`                 | `profile.ProfileExcludeFile._glob/_read_lines/all_matches`, with CPython 3.11's `glob` and `fnmatch` (written out as code, not assumed) |
| `PathsDiff`, `Priority`, `FilesManager` | `filelogic.py` |
| `World`                | the state of a command: file tree, committed and uncommitted databases, caches; `userdata.SyncDir/RemoteSyncDir` |
| `Sync`                 | `commands/sync.py`, `commands/emptytrash.py` |
| `InitReset`            | `commands/init.py`, `commands/reset.py` as far as they touch the two directories and the databases; `filelogic.setup_from_local/remote` |
| `Utf8`, `Command`      | `commandbase.py` and the argument checks of `init.py`: selecting, naming, checking and locking profiles; `containerbase` encoding |
| `Life`                 | the files of a profile from `init` to `reset`: `commandbase.setup_profile`, `Profile.read/generate/write`, the functions registered at exit in `init.py`; what an exception, a signal or a kill leaves of them |
| `Check`                | `fstools.check_dir` and the checks of the directories in `init.py` |
| `HomeDir`              | `profile.py` 208-218, `utils.contract_user`, `os.path.expanduser` |
| `Complete`             | `utils.set_path_autocomplete`, `glob.glob` without `recursive` |
| `Space`                | `userdata.disk_usage`, the checks in `filelogic.py` 471 and `reset.py` 56 |
| `Watch`                | `daemon.py` 80-114: for which file an event is counted; the events and the lookup of rows are given |
| `CheckMsg`             | `profile.py` 899-969: what is reported about a configuration file; `cli.py` 272-273 |
| `DaemonLoop`           | `daemon.py` 93-153: `Watch` and `Daemon` put together |
| `Profiles`             | `commandbase.py` 58-63: the profiles directory and the profiles in it; `profile.py` 99, `reset.py` 109 |
| `Concurrent`           | `sync.py` 59-141 with the whole sync of another client between its steps; `commandbase.py` 97-135 |
| `Bar`                  | `utils.ProgressBar` and its use in `fstools.transfer_tree` |
| `Cli`                  | `cli.py`: the command line, `def_command`, `main`; the arguments in `daemon.py` 181; the parts of `argparse` (CPython 3.11) that it uses |
| `Daemon`               | `daemon.py`: cooldown, busy database, adjustments, sync interval; the info file |

Specifications that no part of the model depends on: `Pattern` (exclude
patterns, after the manual), `DBSpec` (databases as maps), `Merge` (the
three-way merge of the two directories, and when a state has no clashes), and
the definitions at the top of each `Prop_*` file.

Proofs: `ConfigProofs`, `DBProofs`, `DBInv`, `DBCollide`, `DBDec`,
`PriorityProofs`, `SelectProofs`, `FSProofs`, `FstoolsProofs`, `TransferProofs`,
`SymlinkProofs`, `FSDec`, `RmProofs`, `GlobProofs`, `FMProofs`, `TrashProofs`,
`SyncProofs`, `ExcludeProofs`, `InitProofs`, `ResetProofs`, `CutProofs`, `ConflictProofs`, and
for the merge `MergeFacts` and `MergeIntro` (about the specification), `MergeDB` (the databases),
`MergeSync` (change detection), `MergeCut` (deletions and the trash), `MergeNone` (no
conflicts), `MergeUp`
(uploads), `MergeDown` (selection, links and downloads), `MergeEnd` (the whole
sync), `MergeAgain` (a second sync), `MergeHalf` (a sync cut off between two files), `MergeClash`, `MergeClashRun` and `ClashSync` (conflicts),
`MergeTwo` (syncs and joins of other clients), `JoinProofs` (a further client's `init`),
`History` (clients, local changes and commands over time), `LifeProofs` (the files of a profile), `CliProofs` (the command line).
Further examples: `Prop_MoreEx`.  Concrete worlds for the examples: `ExWorld`, `SyncEx`, `MergeEx`.

`Life` and `InitReset`/`Sync` describe the same commands at two levels: the former
has the profile's files and takes what happens to the synced files as an input
(`work`), the latter have the synced files and the databases.

Not modelled: the help texts, signal handlers, logging and the texts of messages (except those of `CheckMsg`),
`secure_string`, `FactoryDict` and `DictProperty` of `utils.py` (a dictionary with other syntax), constructors that only set attributes, inotify (the daemon's inputs are the events it gets),
permissions, hard links, special files, full disks (except
where a theorem says so: `fits`), and concurrency inside one system call.

`Cli.parse_args` was compared with `argparse` of CPython 3.11 (the standard library only, parsers
set up as in `cli.py`) on 11000 random command lines without a difference.

Property theorems live in `Prop_*.v` files, each stated over a small
specification and followed by `Print Assumptions` and by an `Example` that
meets the hypotheses.

## 2. Trusted base

* Coq's kernel (and `vm_compute`).
* The reading of the Python source, of CPython 3.5/3.6's standard library
  (`os`, `posixpath`, `shutil`, `glob`, `sqlite3`) and of SQLite's semantics.
* No axioms of our own.  What `Print Assumptions` lists is recorded in section 5.

## 3. Simplifications (global)

* Priorities and times: exact rationals (`Qc`) and integers instead of floats.
* SHA-256 is an arbitrary function; randomness is an arbitrary stream.
* One level of path representation above `PosixPath`: relative paths are lists
  of components.  `PosixPath` proves that the string functions agree with the
  component functions.
* Python sets iterate in arbitrary order: functions whose effects may depend on
  that order take an iteration order as a parameter; theorems hold for all.
* Symbolic links are resolved as the kernel does (intermediate components,
  `..`, absolute and relative targets, at most 40 links).
* A run of a command is a function from a state to the list of the states it
  passes through, the final state and the result (`Mon`).  A crash leaves one
  of these states; a file is written byte by byte.
* Permissions, hard links, special files and disk-full errors are not modelled
  except where a theorem says so.
* Time: a command reads the clock as `c_now` everywhere, and as `c_end` for the
  time of the last sync.  The stat of an entry is taken when its directory is
  scanned.
* The trash and the exclude directory are listed before the first entry is
  deleted or read; `check_excluded` reads all pattern files before it decides.
* In `World` the databases are the maps of `DBSpec` and are not part of the
  file tree (so `remote.db` is not scanned; it is in the hidden directory).
* In `World` the globbing function is an arbitrary total function: theorems
  about commands cover the runs in which globbing does not raise.  `Glob` has
  the real function, which can raise (C61_dangling_refuted).
* `os.remove(DirEntry)` needs Python 3.6 or later; `glob` is CPython 3.11's.
  The glob model was compared with CPython on about 6800 random cases.
* `\w` is arbitrary outside ASCII; the locale is UTF-8.
* A set of simplifications that concerns a single definition stands in the
  comment of that definition.

## 4. Plan per property

C01 string model of `is_unsafe_symlink`; equivalence with a component-walk specification.
C02 string model of `splitext`/`timestamp_path`; injectivity by recovering the extension.
C03 model of the queue loop with fuel; exactness and order by induction.
C04 C05 C08 C09 regular expressions as explicit matchers; the getters as partial functions; full statement refuted by a witness where the code violates it, proved under the missing guard as `_partial`.
C06 C07 file as a list of lines; round trip by induction over lines; C07 refuted by a two-read history, proved for a fresh object.
C10 civil-calendar algorithm; inverse proved through a 400-year era sweep lifted by a lemma, decimal printing/parsing by induction.
C11-C14, C16 table-level model and refinement by a representation invariant, induction over operation lists.
C15 quantifies over hash and salts: refuted for a collision inside one batch; proved when the resulting ids are distinct.
C17 refuted for a database without files; proved otherwise.
C18 invariant over operation lists.
C19-C23 tree model; induction over the work list; crash points through a fuel counter ticked by every system call.
C24-C27 decision functions against set-comprehension specifications.
C28 rename on both trees; refuted for equal times, for an occupied name and for an
older local version that is not selected; proved otherwise for handle_conflicts. A whole sync with newer local versions is reduced to a sync without conflicts of the state in which the older versions have been moved (MergeClash).
C29-C32 greedy loops with an accounting invariant; permutation invariance through uniqueness of sorted lists.
C33 refuted by two files with the same base name; proved for distinct base names; existing entries preserved in all cases; termination of the renaming loop.
C34 refuted by a dangling link; proved for trees without top-level links.
C35 direct.
C36-C38 whole-sync theorem by composing phase lemmas; one invariant holds at every point where the sync can be cut off, and the final state meets the conditions for the next sync.  States with clashes are excluded, except for conflicts with a newer local version; `_refuted` theorems for what fails.
C39 C40 C42-C44 C48 C49 C53 C63 C65 C66 are violated by the code: `_refuted` theorems with concrete executions, plus `_partial` theorems stating what does hold.
C41 direct, every state.
C45 C46 crash invariants for the init phases.
C47 C50 reset.
C51 C52 interleaving model of the abstract socket lock.
C54 C64 string theorems.
C55-C59 state machines over event lists.
C67-C72 as their neighbours: operation lists (C68), runs cut off (C69; the positive part by showing that the files left between two steps are again free of clashes and have the same merge), interleavings (C70 C71), the init phases (C72).
C73-C75 from the same whole-sync theorem as C36: the accounting of the selection, the flags and the priorities are carried to the end.
C76 an invariant over the syncs of the other clients makes the client's state clean again, then C36.
C77 an invariant that also holds of the state an interrupted attempt leaves; C78 the state after joining meets the conditions of C76's argument.
C79 an invariant of histories (`orderly`), then C36 or C28 for each sync and the argument of C76 for each client in the second round.
C80 the same whole-sync theorem as C36, which `MergeEnd` proves for states in which known paths are excluded (`calm_x`, `clean_x`); C36 is the case without.
C81 two further facts of the selection (`SelectProofs`), carried to the end of the sync like C73's.
C82 rows by induction over the profiles, the table by C62.
C83 the round trip of C06 applied to the values after the prompt.
C84 an identical file is not a clash in Merge, so this is an instance of C28 and C39.
C85-C88 an invariant of the order in which the profile's files are written, kept by every
attempt and every way to end it; the windows in which it is too weak are witnesses.
C89-C91 inductions over the arguments: the tokens of documented options, and what every parse leaves in the namespace.
C92 path resolution in a tree to which directories are added.  C93 arithmetic.  C94 path components walked from the home directory.  C96 sums over the entries, from C72 and C47.  C95 the pattern "name*" matches the names that begin so.  C97 common prefixes of component lists.  C98 from C89 and the classes of arguments.  C99 the messages begin differently for each kind of problem and no key contains a quote.  C100 composed of C97, C55 and C56.  C101 path resolution through links.  C102 by induction over the commands.  C103 a counterexample that is computed.
C60 direct.  C61 glob model against the manual.  C62 width computation.

## 5. Results

`MANIFEST.json` lists the theorems of each property.  Names:

* `Cxx_name`: the full statement.
* `Cxx_name_partial`: proved under conditions that the property does not have;
  the comment above the theorem and the note in `MANIFEST.json` say which.
* `Cxx_name_refuted`: a concrete run of the model that violates the property.

`Print Assumptions` stands behind every property theorem.  All are "Closed
under the global context", except those of C57 (the sync interval), which use
the real numbers of the standard library and therefore

* `ClassicalDedekindReals.sig_not_dec`
* `ClassicalDedekindReals.sig_forall_dec`
* `FunctionalExtensionality.functional_extensionality_dep`
* `Classical_Prop.classic`

`coqchk` also lists, because these modules are loaded and not because a
theorem uses them, the opaque module members `Rdefinitions.RbaseSymbolsImpl.*`,
`Rdefinitions.RinvImpl.*` (standard library) and `ssrunder.Under_rel.*` (Coq's
ssreflect plugin).

## 6. Seeded bugs

`seeded/LOG.jsonl` has one line for each wrong program tried: the definition
edited, the edit, the claim it breaks, the theorems that failed, and the
theorems that were tightened because they did not.
