{"id": "C01", "title": "Unsafe-symlink decision", "statement": "A link is reported safe exactly when its text is a relative path whose lexical normalisation from the link's directory lands on the sync directory or strictly below it; absolute links and links that climb out (including to a sibling whose name merely starts with the sync directory's name) are reported unsafe.", "quantifier": "every absolute normalised sync directory, every link location below it and every link text", "why_tests_cant": "the set of link texts is infinite ('..' nesting, doubled slashes, name prefixes)", "anchors": ["zielen/fstools.py:is_unsafe_symlink"]}
{"id": "C02", "title": "Conflict names", "statement": "The conflict name of a path stays in the same directory, keeps the extension, contains 'conflict', differs from the path, and two different paths, or two different seconds, never give the same conflict name.", "quantifier": "every pair of paths and every timestamp", "why_tests_cant": "dots, leading dots, several extensions and names that already contain a conflict suffix cannot be enumerated", "anchors": ["zielen/utils.py:timestamp_path"]}
{"id": "C03", "title": "Path ancestry", "statement": "The ancestry of a collection of paths is exactly those paths and all of their ancestor directories, without duplicates, and never lists a directory before something below it.", "quantifier": "every finite collection of relative paths in any order", "why_tests_cant": "all depths, shapes and orders", "anchors": ["zielen/utils.py:get_path_ancestry"]}
{"id": "C04", "title": "Storage limit is what the user wrote", "statement": "Every StorageLimit text that the configuration check accepts denotes number times 1000^k (KB, MB, GB) or 1024^k (KiB, MiB, GiB and the bare prefix).", "quantifier": "every text accepted by the validator", "why_tests_cant": "all digit strings, spacings and letter cases", "anchors": ["zielen/profile.py:Profile.storage_limit", "zielen/profile.py:ProfileConfigFile.check_value"]}
{"id": "C05", "title": "Boolean options mean what they say", "statement": "Every text the configuration check accepts for a yes/no option is interpreted as true when it spells yes/true and false when it spells no/false, in any letter case.", "quantifier": "every accepted text", "why_tests_cant": "letter-case combinations interact with two different comparisons", "anchors": ["zielen/profile.py:Profile._convert_bool", "zielen/profile.py:ProfileConfigFile.check_value"]}
{"id": "C06", "title": "Config write/read round trip", "statement": "Writing option values through a template and reading the resulting file yields, for every option that the template mentions, exactly the value written; comments and other lines are kept unchanged.", "quantifier": "every template, every set of one-line option values without surrounding blanks", "why_tests_cant": "free-form text: separators in values, comment-like keys, repeated keys", "anchors": ["zielen/containerbase.py:ConfigFile.read", "zielen/containerbase.py:ConfigFile.write"]}
{"id": "C07", "title": "Re-reading the config follows the file", "statement": "After the config file is read, every option has the value the file gives it, and an option that is absent or commented out has its default, whatever was read before.", "quantifier": "every sequence of file contents read by one process", "why_tests_cant": "depends on the whole history of reads in a long-lived process", "anchors": ["zielen/containerbase.py:ConfigFile.read", "zielen/profile.py:ProfileConfigFile.vals"]}
{"id": "C08", "title": "Trash cleanup period", "statement": "A non-negative TrashCleanupPeriod of d days makes a sync delete the trash entries that are at least d days old; a negative one makes it delete nothing.", "quantifier": "every accepted value and every trash content", "why_tests_cant": "boundary value 0 and all others interact with truthiness", "anchors": ["zielen/profile.py:Profile.cleanup_period", "zielen/commands/sync.py:SyncCommand.main"]}
{"id": "C09", "title": "Config validation is exact", "statement": "A config file is rejected exactly when a required option is missing, an option name is unknown or a value has the wrong syntax.", "quantifier": "every assignment of texts to option names", "why_tests_cant": "infinite input space", "anchors": ["zielen/profile.py:ProfileConfigFile.check_value", "zielen/profile.py:ProfileConfigFile.check_all"]}
{"id": "C10", "title": "Timestamps survive the info file", "statement": "A time stored in the profile's info file is read back as the same instant to the microsecond, so comparing it with file times gives the same answer before and after.", "quantifier": "every microsecond from 1970 to the end of year 9999", "why_tests_cant": "calendar arithmetic: leap years, month ends, every instant", "anchors": ["zielen/profile.py:Profile._convert_epoch", "zielen/profile.py:Profile._convert_timestamp"]}
{"id": "C11", "title": "Local database behaves as a tree map", "statement": "After any sequence of operations, the local database answers every query (one path, all paths, paths under a root, directories only, files only, local only) exactly as a map from paths to data with ancestor-by-prefix would.", "quantifier": "every sequence of operations that adds parents before or with their children, every query, every collision-free hash", "why_tests_cant": "histories are unbounded; the closure table must stay the exact ancestor relation", "anchors": ["zielen/profile.py:ProfileDBFile", "zielen/containerbase.py:SyncDBFile"]}
{"id": "C12", "title": "Remote database behaves as a tree map", "statement": "The same for the remote database, including the last-sync time filter.", "quantifier": "every sequence of operations, every query", "why_tests_cant": "unbounded histories", "anchors": ["zielen/userdata.py:RemoteDBFile", "zielen/containerbase.py:SyncDBFile"]}
{"id": "C13", "title": "Directory priority is the sum of its children", "statement": "After any sequence of database operations the priority of every directory that has children is the sum of its immediate children's priorities.", "quantifier": "every directory and every operation sequence in which an update of a directory that has children also updates something below it", "why_tests_cant": "ancestors must be repaired in the right order after every update", "anchors": ["zielen/profile.py:ProfileDBFile._update_priority"]}
{"id": "C14", "title": "Directory local flag is the conjunction of its children", "statement": "After any sequence of database operations a directory that has children is marked as kept locally exactly when all its immediate children are.", "quantifier": "every directory and every operation sequence in which an update of a directory that has children also updates something below it", "why_tests_cant": "as for C13", "anchors": ["zielen/profile.py:ProfileDBFile._update_local"]}
{"id": "C15", "title": "Hash collisions never lose a path", "statement": "Every path that is added is afterwards found with its own data, and no other path's data changes, even when path hashes collide.", "quantifier": "every hash function, every salt, every batch", "why_tests_cant": "64-bit hash collisions cannot be produced in a test", "anchors": ["zielen/profile.py:ProfileDBFile.add_paths", "zielen/userdata.py:RemoteDBFile.add_paths", "zielen/containerbase.py:SyncDBFile._get_path_id"]}
{"id": "C16", "title": "Adding paths terminates", "statement": "The collision-resolution loop finishes for every hash function and every stream of random salts.", "quantifier": "every hash, salts, database and batch", "why_tests_cant": "non-termination needs adversarial hashes", "anchors": ["zielen/profile.py:ProfileDBFile.add_paths", "zielen/userdata.py:RemoteDBFile.add_paths"]}
{"id": "C17", "title": "New local files get the highest priority", "statement": "Adding files with inflated priority gives each new file the maximum priority of the files already known, whatever is known.", "quantifier": "every database and batch", "why_tests_cant": "includes the database with no files", "anchors": ["zielen/profile.py:ProfileDBFile.add_inflated"]}
{"id": "C18", "title": "Path-set diff bookkeeping", "statement": "Whatever sequence of additions, removals and renames is applied, the initial set never changes, the resultant set is what applying the operations to the set gives, and the reported modifications are exactly the initial paths whose current name differs.", "quantifier": "every starting set and operation sequence", "why_tests_cant": "unbounded operation sequences", "anchors": ["zielen/filelogic.py:PathsDiff"]}
{"id": "C19", "title": "Tree scan is complete", "statement": "Scanning a directory lists every file, link and directory below it exactly once and never enters a symbolic link.", "quantifier": "every directory tree", "why_tests_cant": "all shapes and depths", "anchors": ["zielen/fstools.py:scan_tree"]}
{"id": "C20", "title": "Copying a tree is exact", "statement": "After a transfer returns, every requested file and everything below every requested directory is identical in the destination, nothing else in the destination differs except newly created parent directories, and the source is unchanged.", "quantifier": "every pair of trees without links and every request set", "why_tests_cant": "all overlaps of source, destination and request", "anchors": ["zielen/fstools.py:transfer_tree"]}
{"id": "C21", "title": "Moving a tree never loses a file", "statement": "While a transfer removes its source files, at every instant (so after a crash at any point) every file that was in the source is intact in the source or in the destination.", "quantifier": "every crash point, every pair of trees", "why_tests_cant": "crash points between every two system calls", "anchors": ["zielen/fstools.py:transfer_tree"]}
{"id": "C22", "title": "Requested files that are missing are ignored", "statement": "A transfer asked to copy a path that does not exist in the source ignores it.", "quantifier": "every request set", "why_tests_cant": "documented contract over all request sets", "anchors": ["zielen/fstools.py:transfer_tree"]}
{"id": "C23", "title": "Building a symlink tree", "statement": "Without overwrite no existing entry changes; every requested directory and file exists afterwards; the returned set is exactly what was created; every created file entry is a link to the same path in the source directory.", "quantifier": "every destination tree and request set", "why_tests_cant": "all overlaps", "anchors": ["zielen/fstools.py:symlink_tree"]}
{"id": "C24", "title": "Detection of new files", "statement": "A path is reported as added locally exactly when it is in the local directory, unknown to the database, not an unsafe link and not excluded; added remotely exactly when it is in the remote directory and unknown.", "quantifier": "every state of both directories and the database", "why_tests_cant": "all combinations", "anchors": ["zielen/filelogic.py:FilesManager.compute_added"]}
{"id": "C25", "title": "Detection of deletions", "statement": "A known path missing remotely is deleted locally, a known path missing locally is deleted remotely, reported once at its topmost directory; with the trash enabled it goes to the trash exactly when the database says it was not kept locally.", "quantifier": "every state in which the remote database lists the known paths that are missing locally (see C43)", "why_tests_cant": "all tree shapes; topmost selection", "anchors": ["zielen/filelogic.py:FilesManager.compute_deleted"]}
{"id": "C26", "title": "Detection of modifications", "statement": "A file is reported modified exactly when it is known and newer than the last sync on that side, or another client's sync of it is newer; directories and unsafe links never are.", "quantifier": "every state", "why_tests_cant": "all combinations of times", "anchors": ["zielen/filelogic.py:FilesManager.compute_modified"]}
{"id": "C27", "title": "Stale computation never touches what must stay", "statement": "The set of local files to drop contains no retained path, nothing below or above a retained path, no excluded file and nothing unknown to the database; every other known local path is in it.", "quantifier": "every state and retained set", "why_tests_cant": "all tree shapes", "anchors": ["zielen/filelogic.py:FilesManager.compute_stale"]}
{"id": "C28", "title": "Conflicts keep both versions", "statement": "When a file changed on both sides, after conflict handling both versions still exist, the newer one under the original name and the older one under a conflict name next to it.", "quantifier": "every state and set of conflicting paths", "why_tests_cant": "ties in modification time, occupied conflict names", "anchors": ["zielen/filelogic.py:FilesManager.handle_conflicts", "zielen/filelogic.py:FilesManager._rename_files"]}
{"id": "C29", "title": "Storage limit is respected", "statement": "Whenever anything is selected to stay local, the disk usage of excluded files, selected files and directories plus one block per remaining link is at most the storage limit.", "quantifier": "every set of files, sizes, priorities and limits", "why_tests_cant": "greedy accounting over arbitrary trees with nested selections", "anchors": ["zielen/filelogic.py:FilesManager.prioritize_dirs", "zielen/filelogic.py:FilesManager.prioritize_files"]}
{"id": "C30", "title": "Selection is predictable", "statement": "The selection depends only on paths, priorities and sizes, not on the order in which the database lists them.", "quantifier": "every permutation of the database rows", "why_tests_cant": "all permutations", "anchors": ["zielen/filelogic.py:FilesManager.prioritize_dirs", "zielen/filelogic.py:FilesManager.prioritize_files"]}
{"id": "C31", "title": "Priority order is honoured", "statement": "A file is left out only if, at its turn in decreasing adjusted priority (ties by path), it did not fit in the space left by files of higher rank.", "quantifier": "every input", "why_tests_cant": "all inputs", "anchors": ["zielen/filelogic.py:FilesManager.prioritize_files"]}
{"id": "C32", "title": "Directories are kept whole", "statement": "No selected directory lies inside another selected directory, none is larger than the storage limit and no file below a selected directory is selected again.", "quantifier": "every tree", "why_tests_cant": "nested selections in every order", "anchors": ["zielen/filelogic.py:FilesManager.prioritize_dirs"]}
{"id": "C33", "title": "The trash never loses a file", "statement": "Moving files to the trash keeps every file already there and every moved file, whatever their names.", "quantifier": "every trash content and set of moved paths", "why_tests_cant": "name collisions of every kind", "anchors": ["zielen/filelogic.py:FilesManager.trash_files"]}
{"id": "C34", "title": "Trash cleanup deletes exactly the expired entries", "statement": "Cleaning the trash deletes the entries whose age has reached the period and no others.", "quantifier": "every trash content", "why_tests_cant": "all contents including links", "anchors": ["zielen/filelogic.py:FilesManager.cleanup_trash"]}
{"id": "C35", "title": "Empty-trash empties the trash", "statement": "After empty-trash the trash is empty, the reported number is the number of entries removed and nothing else changed.", "quantifier": "every trash content", "why_tests_cant": "all contents", "anchors": ["zielen/commands/emptytrash.py:EmptyTrashCommand.main"]}
{"id": "C36", "title": "A sync merges both sides", "statement": "After a sync of a quiescent state without clashes, the remote directory is the three-way merge of both sides (new and changed local files, minus deletions, plus remote files), and the local directory shows the same tree, each file as an identical copy or as a link to the remote file; both databases list exactly these paths, uploads are recorded with the current time, and the trash holds what was deleted here and what was there before less the expired entries.", "quantifier": "every pair of trees, database and configuration meeting the stated no-clash conditions, every selection outcome", "why_tests_cant": "all combinations of additions, changes and deletions on all tree shapes", "anchors": ["zielen/commands/sync.py:SyncCommand.main", "zielen/filelogic.py:FilesManager"]}
{"id": "C37", "title": "Excluded and unsafe entries are untouched", "statement": "A sync never changes, uploads or deletes a local entry that is excluded and not in the remote directory, nor an unsafe link that is not a program link.", "quantifier": "every state", "why_tests_cant": "all states", "anchors": ["zielen/commands/sync.py:SyncCommand.main"]}
{"id": "C38", "title": "Sync is idempotent", "statement": "A second sync right after a successful one changes no file content and no path in either directory.", "quantifier": "every state reached by a clean sync", "why_tests_cant": "all states", "anchors": ["zielen/commands/sync.py:SyncCommand.main"]}
{"id": "C39", "title": "An interrupted sync loses nothing", "statement": "If a sync is interrupted at any point and then run again, no file content that existed before is lost.", "quantifier": "every state and every crash point", "why_tests_cant": "crash points inside every copy", "anchors": ["zielen/commands/sync.py:SyncCommand.main", "zielen/fstools.py:transfer_tree"]}
{"id": "C40", "title": "Changes made during a sync are picked up later", "statement": "A file changed while a sync is running is propagated by the next sync.", "quantifier": "every interleaving of a user change with a sync", "why_tests_cant": "scheduling", "anchors": ["zielen/commands/sync.py:SyncCommand.main", "zielen/filelogic.py:FilesManager.compute_modified"]}
{"id": "C41", "title": "An unmounted remote changes nothing", "statement": "When the remote directory is not mounted, sync fails with an error before changing any local file or database.", "quantifier": "every state", "why_tests_cant": "all states", "anchors": ["zielen/userdata.py:RemoteSyncDir.add_exclude_file", "zielen/commands/sync.py:SyncCommand.main"]}
{"id": "C42", "title": "Delete versus modify", "statement": "When a file is deleted on one side and modified on the other, the modified version is not destroyed.", "quantifier": "every state with such a clash", "why_tests_cant": "combinations", "anchors": ["zielen/filelogic.py:FilesManager.compute_deleted", "zielen/commands/sync.py:SyncCommand.main"]}
{"id": "C43", "title": "Two clients may delete the same file", "statement": "After two clients delete the same file, each client's sync completes.", "quantifier": "every pair of clients and file", "why_tests_cant": "multi-client histories", "anchors": ["zielen/filelogic.py:FilesManager.compute_deleted"]}
{"id": "C44", "title": "New directories are synced", "statement": "A new local directory, empty or not, is created in the remote directory by the next sync.", "quantifier": "every state", "why_tests_cant": "shapes of new trees", "anchors": ["zielen/fstools.py:transfer_tree", "zielen/filelogic.py:FilesManager.update_remote"]}
{"id": "C45", "title": "Initialisation preserves every file at every crash point", "statement": "During 'init' at every instant every local file's content is intact in the local or the remote directory at the same path.", "quantifier": "every local tree, every crash point", "why_tests_cant": "crash points", "anchors": ["zielen/filelogic.py:FilesManager.setup_from_local", "zielen/fstools.py:symlink_tree"]}
{"id": "C46", "title": "Initialisation can be resumed", "statement": "Interrupting 'init' anywhere while files are handled and running it again yields the same remote tree and local links as an uninterrupted run.", "quantifier": "every local tree, every crash point", "why_tests_cant": "crash points", "anchors": ["zielen/commands/init.py:InitCommand.main", "zielen/filelogic.py:FilesManager.setup_from_local"]}
{"id": "C47", "title": "Reset retrieves everything", "statement": "After 'reset' every file that was in the remote directory is a regular local file with the same content and no link into the remote directory is left.", "quantifier": "every state without links other than program links", "why_tests_cant": "all trees", "anchors": ["zielen/commands/reset.py:ResetCommand.main"]}
{"id": "C48", "title": "An interrupted reset loses nothing", "statement": "If 'reset' is interrupted at any point, no later run of 'reset' or 'sync' destroys a file.", "quantifier": "every crash point", "why_tests_cant": "crash points and later commands", "anchors": ["zielen/commands/reset.py:ResetCommand.main"]}
{"id": "C49", "title": "Reset keeps unsynced local changes", "statement": "'reset' does not overwrite a local file that was modified after the last sync.", "quantifier": "every state", "why_tests_cant": "combinations", "anchors": ["zielen/commands/reset.py:ResetCommand.main"]}
{"id": "C50", "title": "Reset without retrieval", "statement": "'reset --no-retrieve' removes exactly the local links that point into the remote directory and changes no other file on either side.", "quantifier": "every state", "why_tests_cant": "all trees", "anchors": ["zielen/commands/reset.py:ResetCommand.main"]}
{"id": "C51", "title": "One operation per profile at a time", "statement": "No two commands are ever inside their locked section for the same user and profile, and a lock is released when its holder finishes or dies.", "quantifier": "every interleaving of any number of processes", "why_tests_cant": "schedules", "anchors": ["zielen/commandbase.py:Command.lock", "zielen/commandbase.py:unlock"]}
{"id": "C52", "title": "Locks of different profiles do not interfere", "statement": "The lock names of two different (user, profile) pairs are different.", "quantifier": "every pair of users and valid profile names", "why_tests_cant": "infinite names, dashes in names", "anchors": ["zielen/commandbase.py:Command.lock"]}
{"id": "C53", "title": "A profile can be selected by its directory", "statement": "Commands that take a profile accept its name or the path of its local directory and select that profile.", "quantifier": "every set of profiles and every input", "why_tests_cant": "inputs and sets of profiles", "anchors": ["zielen/commandbase.py:Command.select_profile"]}
{"id": "C54", "title": "Valid profile names stay inside the profiles directory", "statement": "Every accepted profile name is a single, ordinary file name, so the profile lives directly below the profiles directory.", "quantifier": "every text", "why_tests_cant": "infinite input space", "anchors": ["zielen/commands/init.py:InitCommand.main"]}
{"id": "C55", "title": "Access cooldown", "statement": "Two counted accesses of one file are at least the cooldown period apart, and an access that is not counted follows a counted one within that period.", "quantifier": "every stream of access events and every batching", "why_tests_cant": "schedules and timings", "anchors": ["zielen/daemon.py:Daemon.main"]}
{"id": "C56", "title": "No access is lost while the database is busy", "statement": "Every counted access is added to the file's priority exactly once, however often the database is busy.", "quantifier": "every stream of events and every pattern of busy errors", "why_tests_cant": "schedules", "anchors": ["zielen/daemon.py:Daemon.main"]}
{"id": "C57", "title": "Priorities have the configured half-life", "statement": "After the adjustments of one half-life a priority is half of what it was, and the ratio of any two priorities never changes through adjustment.", "quantifier": "every half-life and priorities", "why_tests_cant": "real arithmetic", "anchors": ["zielen/daemon.py:Daemon._adjust", "zielen/profile.py:ProfileDBFile.adjust_all"]}
{"id": "C58", "title": "Daemon and sync do not undo each other's bookkeeping", "statement": "The recorded time of the last sync and of the last adjustment never go backwards while the daemon and syncs run together.", "quantifier": "every interleaving of daemon and sync", "why_tests_cant": "schedules", "anchors": ["zielen/daemon.py:Daemon._adjust", "zielen/daemon.py:Daemon.main", "zielen/profile.py:Profile.write", "zielen/containerbase.py:JSONFile"]}
{"id": "C59", "title": "Sync attempts respect the interval", "statement": "Two attempts by the daemon are at least one sync interval apart and an attempt is made at the first wake-up after the interval has passed, whether or not the previous attempt failed.", "quantifier": "every sequence of wake-up times", "why_tests_cant": "timings", "anchors": ["zielen/daemon.py:Daemon._sync"]}
{"id": "C60", "title": "Excluded files leave the remote only by agreement", "statement": "A sync removes an excluded file from the remote directory only if every client's exclude patterns match it.", "quantifier": "every set of clients and patterns", "why_tests_cant": "all sets of clients", "anchors": ["zielen/userdata.py:RemoteSyncDir.check_excluded", "zielen/filelogic.py:FilesManager.rm_excluded_files"]}
{"id": "C61", "title": "Exclude patterns follow the manual", "statement": "Comment lines match nothing, '*' and '?' do not cross slashes, '**' does, hidden names need an explicit dot, a leading slash anchors the pattern at the root, otherwise it matches at any depth, and a trailing slash matches directories only; everything below a match is excluded too.", "quantifier": "every pattern and every tree", "why_tests_cant": "infinite patterns and trees", "anchors": ["zielen/profile.py:ProfileExcludeFile._glob"]}
{"id": "C62", "title": "The profile table is aligned", "statement": "Every line of the table printed by 'list' has the same visible width.", "quantifier": "every table content", "why_tests_cant": "all contents including escape codes", "anchors": ["zielen/utils.py:BoxTable"]}
{"id": "C63", "title": "Replacing a link by a file does not touch the link's target", "statement": "When the user replaces a symbolic link by a regular file, syncing does not change the file the link pointed to.", "quantifier": "every state", "why_tests_cant": "combinations of links and files", "anchors": ["zielen/fstools.py:transfer_tree"]}
{"id": "C64", "title": "Local directories never overlap", "statement": "'init' rejects a local directory that equals, contains or lies inside another profile's local directory or the program directory, and accepts any other.", "quantifier": "every pair of absolute normalised paths", "why_tests_cant": "path prefixes that are not directory prefixes", "anchors": ["zielen/commands/init.py:InitCommand._verify_local_dir"]}
{"id": "C65", "title": "Deleting a link always uses the trash", "statement": "With the trash enabled, deleting a local link to a remote file and syncing moves the remote file to the trash, whatever happened in earlier syncs.", "quantifier": "every history including interrupted syncs", "why_tests_cant": "histories and crash points", "anchors": ["zielen/filelogic.py:FilesManager.update_local", "zielen/filelogic.py:FilesManager.compute_deleted"]}
{"id": "C66", "title": "Every file name can be tracked", "statement": "Adding a path whose name the file system permits succeeds.", "quantifier": "every file name", "why_tests_cant": "names that are not valid UTF-8", "anchors": ["zielen/containerbase.py:SyncDBFile._get_path_id"]}
{"id": "C67", "title": "A profile that 'init' accepts stays usable", "statement": "When 'init' accepts a template configuration, the configuration file that it writes is accepted by every later command.", "quantifier": "every template", "why_tests_cant": "free-form templates; two validation modes must agree", "anchors": ["zielen/profile.py:Profile.generate", "zielen/profile.py:ProfileConfigFile.check_all"]}
{"id": "C68", "title": "A path with entries below it is a directory", "statement": "After any sequence of operations on either database, the parent of every known path is known and marked as a directory, even when it was first added as a file.", "quantifier": "every operation sequence that adds parents before or with their children and marks no path as a file by an update", "why_tests_cant": "unbounded histories; files that become directories", "anchors": ["zielen/profile.py:ProfileDBFile.add_paths", "zielen/userdata.py:RemoteDBFile.add_paths"]}
{"id": "C69", "title": "An interrupted sync can be repeated", "statement": "When a sync is interrupted at any point, the next sync completes.", "quantifier": "every state and every crash point", "why_tests_cant": "crash points", "anchors": ["zielen/commands/sync.py:SyncCommand.main", "zielen/filelogic.py:FilesManager.compute_deleted"]}
{"id": "C70", "title": "Every accepted profile name can be locked", "statement": "A command on a profile with an accepted name gets the lock when no other command on that profile is running.", "quantifier": "every accepted name", "why_tests_cant": "lengths of names", "anchors": ["zielen/commandbase.py:Command.lock", "zielen/commands/init.py:InitCommand.main"]}
{"id": "C71", "title": "An initialization does not destroy an existing profile", "statement": "Running 'init' for a profile that another process has initialized changes nothing.", "quantifier": "every interleaving of two initializations", "why_tests_cant": "schedules", "anchors": ["zielen/commands/init.py:InitCommand.main"]}
{"id": "C72", "title": "Initialisation moves the files and lists them", "statement": "'init' on an empty remote directory succeeds: every local entry that is neither excluded nor a link leading out of the directory is then in the remote directory unchanged, each file and link is replaced locally by a link to it, nothing else changes, and both databases list exactly the entries of the remote directory, as files or directories.", "quantifier": "every local tree", "why_tests_cant": "all tree shapes with links and exclusions", "anchors": ["zielen/commands/init.py:InitCommand.main", "zielen/filelogic.py:FilesManager.setup_from_local", "zielen/filelogic.py:FilesManager._setup_dir"]}
{"id": "C73", "title": "The local directory stays within the storage limit", "statement": "After a sync that keeps anything locally, the disk usage of the known entries of the local directory, the excluded files and the links together is at most the configured limit.", "quantifier": "every state, every set of priorities, every iteration order", "why_tests_cant": "all trees and selections; rounding of links to blocks", "anchors": ["zielen/filelogic.py:FilesManager.prioritize_dirs", "zielen/filelogic.py:FilesManager.prioritize_files", "zielen/filelogic.py:FilesManager.update_local"]}
{"id": "C74", "title": "The database knows which files are kept here", "statement": "After a sync the profile database marks a file as kept locally exactly if the local directory has a copy of it rather than a link.", "quantifier": "every state, also after interrupted syncs", "why_tests_cant": "histories and crash points; the flag is not visible to the user", "anchors": ["zielen/filelogic.py:FilesManager.update_local", "zielen/profile.py:ProfileDBFile.update_paths"]}
{"id": "C75", "title": "A sync does not change priorities", "statement": "A sync leaves the priority of every known file as it was; a file new in the remote directory starts with priority zero, a file new in the local directory with the highest priority of a known file if 'InflatePriority' is on and otherwise with zero.", "quantifier": "every state, every iteration order", "why_tests_cant": "all databases", "anchors": ["zielen/commands/sync.py:SyncCommand.main", "zielen/profile.py:ProfileDBFile.add_inflated"]}
{"id": "C76", "title": "The clients converge", "statement": "When a client has synced and the others have synced any number of times since, its next sync succeeds, leaves the remote directory as it is, and makes the local directory show the remote directory if nothing was changed locally; after that all clients that were in step with the remote directory show the same files.", "quantifier": "every state of every client, every number of other clients and syncs", "why_tests_cant": "histories of several clients", "anchors": ["zielen/commands/sync.py:SyncCommand.main", "zielen/userdata.py:RemoteSyncDir"]}
{"id": "C77", "title": "Joining a remote directory is safe and complete", "statement": "'init' of a further client on a remote directory with files changes nothing in the remote directory but the program's own files, at any point where it can be cut off; when it completes, after any number of interrupted attempts, the local directory has a directory for each remote directory and a link for each remote file and nothing else, and both databases list them.", "quantifier": "every remote tree, every iteration order, every history of interrupted attempts", "why_tests_cant": "crash points and their repetition; all tree shapes", "anchors": ["zielen/commands/init.py:InitCommand.main", "zielen/filelogic.py:FilesManager.setup_from_remote", "zielen/filelogic.py:FilesManager._setup_dir"]}
{"id": "C78", "title": "A client that has joined catches up", "statement": "After a client has joined and the others have synced and joined any number of times, its first sync succeeds, leaves the remote directory as it is and makes the local directory show it.", "quantifier": "every remote tree, every number of other clients, syncs and joins", "why_tests_cant": "histories of several clients", "anchors": ["zielen/commands/init.py:InitCommand.main", "zielen/commands/sync.py:SyncCommand.main"]}
{"id": "C79", "title": "Several clients over time", "statement": "After any history of setting up a first client, joining further ones, changing local files and syncing, a sync whose changes do not clash with those in the remote directory succeeds, merges the two sides and leaves the other clients' directories alone; of a file that was changed on both sides, both versions are kept. When every client syncs once and then once more, all of them show the same files, which are those the remote directory had after the first round.", "quantifier": "every history of any number of clients, local changes, joins and syncs", "why_tests_cant": "histories of unbounded length", "anchors": ["zielen/commands/init.py:InitCommand.main", "zielen/commands/sync.py:SyncCommand.main"]}
{"id": "C80", "title": "Files that are excluded after they were synced", "statement": "A sync in which a synced file is excluded copies that file to the local directory if only a link was there, keeps it in the remote directory and in sync until the patterns of every client match it, and then removes it from the remote directory and the databases; at any instant the file is in one of the directories, and every client can go on syncing.", "quantifier": "every state, every exclude pattern, every number of clients, every instant", "why_tests_cant": "sets of patterns of several clients; crashes between copying and removing", "anchors": ["zielen/commands/sync.py:SyncCommand.main", "zielen/filelogic.py:FilesManager.rm_excluded_files", "zielen/filelogic.py:FilesManager.rm_local_files", "docs/zielen.1.rst:EXCLUDING"]}
{"id": "C81", "title": "A sync keeps as much as it can, by priority", "statement": "If all known files fit in the storage limit beside the excluded ones, a sync leaves a copy of every one of them in the local directory. Otherwise, a file that is kept by itself takes less space than every file of higher adjusted priority of which only a link is kept.", "quantifier": "every state, every set of sizes and priorities, every iteration order", "why_tests_cant": "all trees and selections; a sync that keeps too little never fails", "anchors": ["zielen/filelogic.py:FilesManager.prioritize_dirs", "zielen/filelogic.py:FilesManager.prioritize_files", "zielen/filelogic.py:FilesManager.update_local", "zielen/commands/sync.py:SyncCommand.main"]}
{"id": "C82", "title": "list shows every profile", "statement": "The list command prints one row per profile, with its name and the local directory, remote directory and limit of its configuration file, in a table whose lines have equal width; what is wrong with one profile does not hide the others.", "quantifier": "every set of profiles, every contents of their configuration files", "why_tests_cant": "profiles that are incomplete or being initialized; arbitrary values", "anchors": ["zielen/commands/list.py:ListCommand.main", "zielen/profile.py:ProfileConfigFile.vals", "zielen/utils.py:BoxTable"]}
{"id": "C83", "title": "init writes a configuration that the program accepts", "statement": "The configuration file that init writes from a template and the user's answers can be read by the later commands. Each mandatory option has the value of the template or, if it is missing there, an acceptable one that the user typed; the other options and lines are those of the template.", "quantifier": "every template, every sequence of answers", "why_tests_cant": "arbitrary templates and answers", "anchors": ["zielen/profile.py:Profile.generate", "zielen/profile.py:ProfileConfigFile.prompt", "zielen/profile.py:ProfileConfigFile.check_all", "docs/zielen.1.rst:COMMANDS template"]}
{"id": "C84", "title": "The same file on both sides is no conflict", "statement": "A file that has the same contents and modification time in the local and the remote directory, whether it is known to the program or not, keeps its name in both during and after a sync, and no conflict file is made for it.", "quantifier": "every state, every iteration order, every instant", "why_tests_cant": "all combinations of twins and other changes; crash points", "anchors": ["zielen/filelogic.py:FilesManager.handle_conflicts", "zielen/commands/sync.py:SyncCommand.main"]}
{"id": "C85", "title": "An interrupted initialization can be finished", "statement": "After any number of attempts to initialize a profile that failed, were interrupted or killed, there is either nothing of the profile or the next 'init' resumes it and completes it, with the options and directories of the attempt that created it.", "quantifier": "every number of attempts, their answers and outcomes, every point at which they end", "why_tests_cant": "crash points and their repetition", "anchors": ["zielen/commands/init.py:InitCommand.main", "zielen/profile.py:Profile.generate", "zielen/profile.py:Profile.read", "zielen/profile.py:InfoFile"]}
{"id": "C86", "title": "An interrupted initialization can be cancelled", "statement": "After an interrupted initialization, 'reset' removes the profile, as the message that the program prints says.", "quantifier": "every interruption", "why_tests_cant": "crash points", "anchors": ["zielen/commandbase.py:Command.print_interrupt_msg", "zielen/commandbase.py:Command.setup_profile", "zielen/commands/reset.py:ResetCommand.main"]}
{"id": "C87", "title": "reset removes the whole profile", "statement": "A completed 'reset' leaves nothing of the profile directory; one that was interrupted can be repeated.", "quantifier": "every profile, every order of removals, every point at which it ends", "why_tests_cant": "crash points; the order of rmtree", "anchors": ["zielen/commands/reset.py:ResetCommand.main", "zielen/commandbase.py:Command.setup_profile"]}
{"id": "C88", "title": "An interrupted sync leaves a usable profile", "statement": "However a sync ends, the profile is as before except for the rows of its database, which are those of before or those of the finished sync, and further syncs and a reset work.", "quantifier": "every outcome of the sync, every point at which it ends", "why_tests_cant": "crash points", "anchors": ["zielen/commands/sync.py:SyncCommand.main", "zielen/profile.py:Profile.write", "zielen/containerbase.py:JSONFile.write", "README.rst:Handles interruptions"]}
{"id": "C89", "title": "Documented command lines do what they say", "statement": "The options of the usage message, in their long and short forms and in any order before or after the profile, with any of the global options in front, give the command with the name and values that were written; of a repeated option the last value counts; any name at all can be given after \"--\".", "quantifier": "every list of options, every name and value not beginning with \"-\" (every name after \"--\")", "why_tests_cant": "orders and repetitions of options, any name", "anchors": ["zielen/cli.py:parse_args", "zielen/cli.py:def_command"]}
{"id": "C90", "title": "Nothing is done that the command line does not ask for", "statement": "A command is run only if its name and the profile are among the arguments; keep_remote, no_retrieve and add_remote are set, and an exclude or template file is used, only if an argument names that option. Nothing on the command line is ignored: words that are neither the command nor its profile, and arguments that look like options and are none, are errors.", "quantifier": "every command line", "why_tests_cant": "all command lines, including abbreviations and groups of letters", "anchors": ["zielen/cli.py:parse_args", "zielen/cli.py:def_command"]}
{"id": "C91", "title": "Errors are reported", "statement": "The exit status is 0 exactly if help or the version was shown or the command completed, and otherwise 1 with a message or a trace on stderr; a trace in place of a message is printed only with --debug, and always with it.", "quantifier": "every command line, every outcome of the command", "why_tests_cant": "all command lines", "anchors": ["zielen/cli.py:main", "zielen/cli.py:HelpAction"]}
{"id": "C92", "title": "Only usable directories are accepted", "statement": "Before an initialization changes anything, both directories are checked: if it goes on, both exist, the one that is to be filled is empty, and nothing was changed except that directories were created; directories that fit are accepted; directories that do not (also two that overlap, or one that cannot be created) are refused with a message.", "quantifier": "every file tree, every two paths, all permissions", "why_tests_cant": "all file trees and permissions", "anchors": ["zielen/fstools.py:check_dir", "zielen/commands/init.py:InitCommand.main"]}
{"id": "C93", "title": "The progress bar stays on its line", "statement": "Each update prints one line exactly as wide as the terminal, with the message, the bar and the percentage; no update is an error, the percentages do not decrease and the last is 100.", "quantifier": "every width of the terminal, every message, every list of file sizes", "why_tests_cant": "widths, sizes (also all zero)", "anchors": ["zielen/utils.py:ProgressBar.update", "zielen/fstools.py:transfer_tree"]}
{"id": "C94", "title": "The configured directories are the ones used", "statement": "The local and remote directory of a profile are the absolute paths that LocalDir and RemoteDir name, '~/' standing for the home directory; contracting a path with '~' and expanding it again gives the same directory, so a completion the prompt offers is understood as the directory it was offered for.", "quantifier": "every accepted value, every home directory, every absolute path", "why_tests_cant": "values with '..', '.', repeated slashes; directories outside the home directory", "anchors": ["zielen/profile.py:Profile.local_path", "zielen/profile.py:Profile.remote_path", "zielen/utils.py:contract_user"]}
{"id": "C95", "title": "Completion offers exactly the paths that continue what was typed", "statement": "Pressing tab while typing a path offers exactly the entries of the directory whose names begin with what was typed (hidden ones only after a dot), or, after the name of a directory, its entries that are not hidden; a path typed with '~/' is completed to paths that begin with '~/'.", "quantifier": "for every file system, directory, home directory and beginning of a name", "why_tests_cant": "A test tries a few names in one directory; the claim is about every tree and every beginning.", "anchors": ["zielen/utils.py:108-138"]}
{"id": "C96", "title": "The space is checked before files are moved", "statement": "init and reset only start to move files when they fit into the free space of the other file system, and refuse, without having changed any file, exactly when they do not fit.", "quantifier": "for every pair of directories, sizes of files and amount of free space", "why_tests_cant": "Tests use small directories and an almost empty file system; the refusal and the sizes at its border are never exercised.", "anchors": ["zielen/userdata.py:108-130", "zielen/filelogic.py:460-488", "zielen/commands/reset.py:53-58"]}
{"id": "C97", "title": "An access counts for the file that was opened", "statement": "Every opening of a file in the local or the remote directory that is in the database is counted under the path of that file in its directory, in the order of the openings; nothing else is counted, and no event ends the daemon.", "quantifier": "every pair of directories that the configuration can name and every sequence of events", "why_tests_cant": "which directory an event belongs to is decided by comparing path names, and a variable keeps its value from one event to the next", "anchors": ["zielen/daemon.py:Daemon.main"]}
{"id": "C98", "title": "The daemon syncs its profile", "statement": "For every accepted profile name the command that the daemon starts is understood as the sync command for the profile of that name.", "quantifier": "every accepted profile name", "why_tests_cant": "names that look like options", "anchors": ["zielen/daemon.py:Daemon._sync", "zielen/cli.py:parse_args"]}
{"id": "C99", "title": "Every problem of a configuration file is reported", "statement": "For every content of a configuration file the command prints one message for each missing required option, each unrecognized option and each value that is not allowed, saying which option it is and what its value must be, each of them once, and nothing else; it fails exactly when there is such a message.", "quantifier": "every set of options and values, with and without the check of empty values", "why_tests_cant": "combinations of several problems in one file", "anchors": ["zielen/profile.py:ProfileConfigFile.check_value", "zielen/profile.py:ProfileConfigFile.check_all", "zielen/cli.py:main"]}
{"id": "C100", "title": "Opening a file raises its priority", "statement": "While the daemon runs, the priorities of the files in the database that are opened in the local or in the remote directory are raised once the database accepts updates, once for each opening except those that follow a counted one of the same file within a second; nothing else is raised.", "quantifier": "every sequence of rounds, openings and answers of the database", "why_tests_cant": "interleavings of events, refusals and times", "anchors": ["zielen/daemon.py:Daemon.main"]}
{"id": "C101", "title": "The commands find the profiles that there are", "statement": "The profiles are exactly the directories in the profiles directory, whatever links lead there; files and links in it are no profiles. If that directory is missing it is created, where the links lead, and nothing else changes; if something else is in its place the command fails and nothing changes. A name selects a profile exactly if there is one of that name.", "quantifier": "every file tree, every path", "why_tests_cant": "all shapes of the tree, links anywhere on the path", "anchors": ["zielen/commandbase.py:Command.__init__", "zielen/commandbase.py:Command.select_profile", "zielen/paths.py:get_profiles_dir"]}
{"id": "C102", "title": "Profiles come and go by their names", "statement": "After any sequence of commands that make and remove profiles, there is a profile of a name exactly if the last command about that name made it, or if none was about it and it was there before; the directories of other profiles and everything outside the profiles directory stay as they were, and making a profile again removes nothing of it; removing a profile that is not there is an error and changes nothing.", "quantifier": "every sequence of commands, every accepted name, every tree", "why_tests_cant": "histories of any length", "anchors": ["zielen/commandbase.py:Command.__init__", "zielen/profile.py:Profile.generate", "zielen/commands/reset.py:ResetCommand.main"]}
{"id": "C103", "title": "Clients that sync at the same time lose nothing", "statement": "When two clients have edited the same file and sync with the same remote directory at the same time, each of the two versions is in the remote directory afterwards, one of them as a conflict copy; and an edited version is not lost when the other client has deleted the file. This is so whatever the moment of one sync at which the other one runs.", "quantifier": "every moment of a sync, every two clients", "why_tests_cant": "interleavings of two commands on different machines", "anchors": ["zielen/commandbase.py:Command.lock", "zielen/commands/sync.py:SyncCommand.main"]}
