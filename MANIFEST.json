{
 "claims": [
  {
   "property": "C01",
   "status": "proved",
   "theorems": [
    "C01_unsafe_symlink_exact"
   ],
   "note": ""
  },
  {
   "property": "C02",
   "status": "proved",
   "theorems": [
    "C02_conflict_name_injective",
    "C02_conflict_name_shape",
    "C02_conflict_name_time"
   ],
   "note": ""
  },
  {
   "property": "C03",
   "status": "proved",
   "theorems": [
    "C03_ancestry"
   ],
   "note": ""
  },
  {
   "property": "C04",
   "status": "partial",
   "theorems": [
    "C04_storage_limit_partial",
    "C04_storage_limit_refuted"
   ],
   "note": "Violated by the code: accepted texts such as 10mb raise UnboundLocalError (C04_storage_limit_refuted). The partial theorem says exactly which accepted texts are read, and that these are read correctly."
  },
  {
   "property": "C05",
   "status": "partial",
   "theorems": [
    "C05_bool_options_partial",
    "C05_bool_options_refuted"
   ],
   "note": "Violated by the code: 'Yes' is accepted and read as false (C05_bool_options_refuted). Proved for lower-case texts and for no/false in every letter case."
  },
  {
   "property": "C06",
   "status": "proved",
   "theorems": [
    "C06_config_roundtrip",
    "C06_other_lines_kept"
   ],
   "note": ""
  },
  {
   "property": "C07",
   "status": "partial",
   "theorems": [
    "C07_reread_partial",
    "C07_reread_refuted"
   ],
   "note": "Violated by the code: an option removed from the file keeps its old value in a long-running process (C07_reread_refuted). Proved for the first read and for the options that the file mentions."
  },
  {
   "property": "C09",
   "status": "proved",
   "theorems": [
    "C09_read_is_stripped",
    "C09_validation_exact"
   ],
   "note": ""
  },
  {
   "property": "C10",
   "status": "proved",
   "theorems": [
    "C10_calendar",
    "C10_timestamp_roundtrip"
   ],
   "note": ""
  },
  {
   "property": "C18",
   "status": "proved",
   "theorems": [
    "C18_initial_set_fixed",
    "C18_modified_pairs",
    "C18_resultant_set",
    "C18_resultant_step",
    "C18_union"
   ],
   "note": ""
  },
  {
   "property": "C67",
   "status": "partial",
   "theorems": [
    "C67_template_blank_refuted",
    "C67_template_partial"
   ],
   "note": "Violated by the code for templates with a blank value (C67_template_blank_refuted); proved for templates without one."
  },
  {
   "property": "C11",
   "status": "proved",
   "theorems": [
    "C11_known_paths",
    "C11_leaf_rows",
    "C11_local_db_tree_map"
   ],
   "note": ""
  },
  {
   "property": "C12",
   "status": "proved",
   "theorems": [
    "C12_remote_db_tree_map",
    "C12_rows"
   ],
   "note": ""
  },
  {
   "property": "C13",
   "status": "proved",
   "theorems": [
    "C13_condition_needed",
    "C13_priority_is_sum"
   ],
   "note": "C13_condition_needed shows that the condition on updates is necessary."
  },
  {
   "property": "C14",
   "status": "proved",
   "theorems": [
    "C14_local_is_conjunction"
   ],
   "note": ""
  },
  {
   "property": "C15",
   "status": "partial",
   "theorems": [
    "C15_collisions_harmless_partial",
    "C15_remote_collisions_harmless_partial",
    "C15_remove_refuted",
    "C15_same_batch_refuted",
    "C15_unknown_path_refuted"
   ],
   "note": "Violated by the code in three ways, each with a witness: two colliding paths in one batch (C15_same_batch_refuted), removal of a salted directory with its contents (C15_remove_refuted), unknown paths that collide with known ones (C15_unknown_path_refuted). Proved for all histories that avoid these, with arbitrary collisions between unsalted hashes and fresh salted ones."
  },
  {
   "property": "C16",
   "status": "proved",
   "theorems": [
    "C16_add_terminates"
   ],
   "note": ""
  },
  {
   "property": "C17",
   "status": "partial",
   "theorems": [
    "C17_inflated_partial",
    "C17_no_file_refuted"
   ],
   "note": "Violated by the code when no file is known (C17_no_file_refuted); proved whenever some file is known."
  },
  {
   "property": "C68",
   "status": "proved",
   "theorems": [
    "C68_parents_are_directories"
   ],
   "note": ""
  },
  {
   "property": "C29",
   "status": "proved",
   "theorems": [
    "C29_storage_limit"
   ],
   "note": ""
  },
  {
   "property": "C30",
   "status": "proved",
   "theorems": [
    "C30_selection_predictable"
   ],
   "note": ""
  },
  {
   "property": "C31",
   "status": "proved",
   "theorems": [
    "C31_directories",
    "C31_priority_order"
   ],
   "note": "For files and, in C31_directories, for directories: one that could be kept whole is left out only if it is larger than the limit or does not fit beside what ranks higher."
  },
  {
   "property": "C32",
   "status": "proved",
   "theorems": [
    "C32_directories_whole"
   ],
   "note": ""
  },
  {
   "property": "C19",
   "status": "proved",
   "theorems": [
    "C19_scan_complete"
   ],
   "note": ""
  },
  {
   "property": "C20",
   "status": "proved",
   "theorems": [
    "C20_copy_exact"
   ],
   "note": "Stated for trees apart from each other where nothing of another kind is in the way; links made by the program in the destination and links in the source are covered."
  },
  {
   "property": "C21",
   "status": "proved",
   "theorems": [
    "C21_move_never_loses"
   ],
   "note": "Under the same conditions; covers files and links."
  },
  {
   "property": "C22",
   "status": "partial",
   "theorems": [
    "C22_missing_changes_nothing_partial",
    "C22_missing_ignored_refuted",
    "C22_source_missing_partial"
   ],
   "note": "Violated by the code: a missing path raises FileNotFoundError (C22_missing_ignored_refuted). Proved: nothing is changed then, nor if the source itself is missing."
  },
  {
   "property": "C23",
   "status": "proved",
   "theorems": [
    "C23_symlink_overwrite",
    "C23_symlink_tree"
   ],
   "note": ""
  },
  {
   "property": "C24",
   "status": "proved",
   "theorems": [
    "C24_added"
   ],
   "note": ""
  },
  {
   "property": "C25",
   "status": "proved",
   "theorems": [
    "C25_deleted"
   ],
   "note": "A known path that is missing locally and not in the remote database raises KeyError instead: see C43."
  },
  {
   "property": "C26",
   "status": "proved",
   "theorems": [
    "C26_modified"
   ],
   "note": ""
  },
  {
   "property": "C27",
   "status": "proved",
   "theorems": [
    "C27_stale"
   ],
   "note": ""
  },
  {
   "property": "C33",
   "status": "partial",
   "theorems": [
    "C33_moved_kept_partial",
    "C33_old_entries_kept",
    "C33_trash_keeps_refuted"
   ],
   "note": "Violated by the code: files of the same name are moved to the same trash name and overwrite each other (C33_trash_keeps_refuted). Proved: entries that were already in the trash are never lost, and moved files are all there, dated now, if their new names differ."
  },
  {
   "property": "C34",
   "status": "partial",
   "theorems": [
    "C34_cleanup_exact_partial",
    "C34_cleanup_refuted"
   ],
   "note": "Violated by the code for symbolic links in the trash (C34_cleanup_refuted); proved when no entry of the trash is a link."
  },
  {
   "property": "C35",
   "status": "proved",
   "theorems": [
    "C35_empty_trash",
    "C35_vanished"
   ],
   "note": "On Python 3.5 os.remove does not accept the directory entry that the code passes; the model is of 3.6 or later here."
  },
  {
   "property": "C08",
   "status": "partial",
   "theorems": [
    "C08_days_partial",
    "C08_negative",
    "C08_zero_refuted"
   ],
   "note": "Violated by the code for 0 days (C08_zero_refuted): nothing is deleted. Proved for positive numbers of days (trash without links) and for negative ones."
  },
  {
   "property": "C39",
   "status": "partial",
   "theorems": [
    "C39_conflict_partial",
    "C39_conflict_refuted",
    "C39_dropped_refuted",
    "C39_intact_partial",
    "C39_torn_refuted"
   ],
   "note": "Violated by the code, with three witnesses: a sync interrupted between removing a local file and linking it makes the next sync delete the remote file (C39_dropped_refuted); a torn local copy is uploaded over the good remote file (C39_torn_refuted); if a sync with a conflict is cut off after moving the older version away, the next sync deletes the newer one (C39_conflict_refuted). Proved: whenever a sync without clashes is cut off, each file of the merge is untouched in one of the two directories, each file on its way to the trash is in its old place or there, and the databases are as before unless everything is done (C39_intact_partial); with conflicts in which the local version is newer, both versions are there (C39_conflict_partial)."
  },
  {
   "property": "C40",
   "status": "partial",
   "theorems": [
    "C40_edit_refuted",
    "C40_later_partial",
    "C40_missed_refuted"
   ],
   "note": "Violated by the code: an edit made while a sync runs is overwritten by that sync (C40_edit_refuted), and one made before the time of the last sync is taken is overwritten by the next sync (C40_missed_refuted). Proved: what is new or deleted after the sync has done its work, at whatever time, and what is edited after its time is taken, is brought to the remote directory by the next sync (C40_later_partial)."
  },
  {
   "property": "C41",
   "status": "proved",
   "theorems": [
    "C41_unmounted"
   ],
   "note": "The mount point may be an empty directory or missing; links on the way to it are not covered."
  },
  {
   "property": "C42",
   "status": "partial",
   "theorems": [
    "C42_edit_lost_refuted",
    "C42_local_deletion_refuted",
    "C42_remote_deletion_refuted"
   ],
   "note": "Violated by the code in both directions (C42_local_deletion_refuted, C42_remote_deletion_refuted). With two clients the edit is deleted everywhere and the client that deleted the file can never sync again (C42_edit_lost_refuted)."
  },
  {
   "property": "C43",
   "status": "partial",
   "theorems": [
    "C43_stuck",
    "C43_two_deletions_refuted"
   ],
   "note": "Violated by the code (C43_two_deletions_refuted); C43_stuck: the second client can never sync again."
  },
  {
   "property": "C44",
   "status": "partial",
   "theorems": [
    "C44_directory_partial",
    "C44_empty_dir_refuted"
   ],
   "note": "Proved for states without clashes in which a new directory is not empty or lies in another new one (C44_directory_partial). Violated by the code for an empty one by itself (C44_empty_dir_refuted)."
  },
  {
   "property": "C63",
   "status": "partial",
   "theorems": [
    "C63_link_target_refuted",
    "C63_target_partial"
   ],
   "note": "Violated by the code when the link is in the remote directory (C63_link_target_refuted). Proved for states without clashes (which have no links in the remote directory; C63_target_partial)."
  },
  {
   "property": "C65",
   "status": "partial",
   "theorems": [
    "C65_link_partial",
    "C65_trash_bypassed_refuted"
   ],
   "note": "Proved when the previous sync was of a state without clashes and not cut off (C65_link_partial). Violated by the code after an interrupted sync (C65_trash_bypassed_refuted)."
  },
  {
   "property": "C69",
   "status": "partial",
   "theorems": [
    "C69_between_partial",
    "C69_wedged_refuted"
   ],
   "note": "Violated by the code (C69_wedged_refuted). Proved for states without clashes, any number of interruptions between two files (C69_between_partial). Missing: interruptions while a file is being copied, after something was moved to the trash or removed from the local directory, or after a new remote file was linked."
  },
  {
   "property": "C51",
   "status": "proved",
   "theorems": [
    "C51_mutual_exclusion",
    "C51_released"
   ],
   "note": ""
  },
  {
   "property": "C52",
   "status": "proved",
   "theorems": [
    "C52_lock_names"
   ],
   "note": ""
  },
  {
   "property": "C53",
   "status": "partial",
   "theorems": [
    "C53_directory_refuted",
    "C53_names_partial"
   ],
   "note": "Violated by the code: an existing path that is not a profile name ends with AttributeError (C53_directory_refuted). Proved for names."
  },
  {
   "property": "C54",
   "status": "proved",
   "theorems": [
    "C54_profile_names"
   ],
   "note": "Python's word characters outside ASCII are arbitrary."
  },
  {
   "property": "C62",
   "status": "proved",
   "theorems": [
    "C62_header",
    "C62_table_aligned"
   ],
   "note": ""
  },
  {
   "property": "C64",
   "status": "partial",
   "theorems": [
    "C64_double_slash_refuted",
    "C64_resume_refuted",
    "C64_verify_partial"
   ],
   "note": "Violated by the code for a path with two leading slashes (C64_double_slash_refuted) and when an initialization is resumed that was killed before the check (C64_resume_refuted). Proved for the check itself on all other absolute normalised paths."
  },
  {
   "property": "C66",
   "status": "partial",
   "theorems": [
    "C66_file_names_partial",
    "C66_file_names_refuted"
   ],
   "note": "Violated by the code for names that are not valid UTF-8 (C66_file_names_refuted); C66_file_names_partial says exactly which names can be tracked."
  },
  {
   "property": "C70",
   "status": "partial",
   "theorems": [
    "C70_long_name_refuted",
    "C70_short_names_partial"
   ],
   "note": "Violated by the code for names longer than the kernel's limit on socket names (C70_long_name_refuted); proved for ASCII names of at most 89 characters."
  },
  {
   "property": "C71",
   "status": "partial",
   "theorems": [
    "C71_exists",
    "C71_init_race_refuted",
    "C71_no_race_partial"
   ],
   "note": "Violated by the code: the profile is read before it is locked (C71_init_race_refuted); proved when reading, locking and running are not interleaved."
  },
  {
   "property": "C55",
   "status": "partial",
   "theorems": [
    "C55_cooldown_partial",
    "C55_cooldown_refuted",
    "C55_counted"
   ],
   "note": "Violated by the code when a cooldown ends between emptying the queue and forgetting old times (C55_cooldown_refuted); C55_cooldown_partial bounds the error by that delay. C55_counted is complete for a running daemon."
  },
  {
   "property": "C56",
   "status": "partial",
   "theorems": [
    "C56_commit_refuted",
    "C56_increments_partial",
    "C56_lookup_refuted"
   ],
   "note": "Violated by the code: a refused commit makes increments twice (C56_commit_refuted), a refused lookup ends the daemon (C56_lookup_refuted). Proved when only updates are refused. Priorities are represented by the increments made."
  },
  {
   "property": "C57",
   "status": "partial",
   "theorems": [
    "C57_half_life_partial",
    "C57_ratio",
    "C57_zero_refuted"
   ],
   "note": "Over the real numbers, with the axioms of the standard library's Reals. Violated by the code for a half-life of zero, which the configuration accepts (C57_zero_refuted)."
  },
  {
   "property": "C58",
   "status": "partial",
   "theorems": [
    "C58_last_adjust_partial",
    "C58_last_adjust_refuted",
    "C58_last_sync_partial",
    "C58_last_sync_refuted"
   ],
   "note": "Violated by the code (C58_last_sync_refuted, C58_last_adjust_refuted); proved when reading and writing are not interleaved in the two harmful ways."
  },
  {
   "property": "C59",
   "status": "proved",
   "theorems": [
    "C59_attempts",
    "C59_minutes"
   ],
   "note": ""
  },
  {
   "property": "C28",
   "status": "partial",
   "theorems": [
    "C28_both_kept_partial",
    "C28_equal_times_refuted",
    "C28_local_older_refuted",
    "C28_name_taken_refuted",
    "C28_sync_partial"
   ],
   "note": "Violated by the code: equal modification times lose the remote version, a file that has the conflict name already is overwritten, and when the local version is the older one and the file is not selected to stay local the sync fails with FileNotFoundError and the next sync deletes the newer version (C28_equal_times_refuted, C28_name_taken_refuted, C28_local_older_refuted). Proved for handle_conflicts when the conflict names are free, at every crash point, and for a whole sync (C28_sync_partial) when also every local version is the newer one; the other changes of the same sync are merged as usual."
  },
  {
   "property": "C60",
   "status": "partial",
   "theorems": [
    "C60_agreement_partial",
    "C60_removed_partial",
    "C60_sync_partial"
   ],
   "note": "Proved for rm_excluded_files, at every crash point and also when it fails; for a whole sync, of states without clashes, C60_sync_partial."
  },
  {
   "property": "C45",
   "status": "partial",
   "theorems": [
    "C45_excluded_refuted",
    "C45_init_safe_partial"
   ],
   "note": "Violated by the code: after an interruption an excluded local file can be replaced by a link (C45_excluded_refuted). Proved for any number of interrupted attempts when no link has to be moved, and for a first attempt with links whose output is not a terminal; patterns must match by name, the local directory must not contain '.zielen' or a link d/d in a directory d."
  },
  {
   "property": "C46",
   "status": "partial",
   "theorems": [
    "C46_databases_refuted",
    "C46_link_refuted",
    "C46_resume_partial"
   ],
   "note": "Violated by the code for links to directories (C46_link_refuted) and for the databases, which miss the files that were linked before the interruption (C46_databases_refuted). Proved for the file trees when no link has to be moved."
  },
  {
   "property": "C72",
   "status": "partial",
   "theorems": [
    "C72_dangling_refuted",
    "C72_init_partial"
   ],
   "note": "Violated by the code for a dangling link when the output is a terminal (C72_dangling_refuted). Proved for a first attempt otherwise, under the conditions of C45."
  },
  {
   "property": "C47",
   "status": "partial",
   "theorems": [
    "C47_dotdot_refuted",
    "C47_no_space",
    "C47_reset_partial",
    "C47_unlisted_refuted"
   ],
   "note": "Violated by the code for links with '..' (C47_dotdot_refuted) and when the remote directory holds a file that is not in its database yet (C47_unlisted_refuted). Proved when the remote directory is as its database says and no local link has '..' in its text."
  },
  {
   "property": "C48",
   "status": "partial",
   "theorems": [
    "C48_crash_partial",
    "C48_rerun_refuted",
    "C48_resume_partial",
    "C48_sync_refuted"
   ],
   "note": "Violated by the code: after an interruption every later reset fails (C48_rerun_refuted) and a later sync destroys the retrieved files (C48_sync_refuted). Proved: nothing is lost at the time of the interruption, and with --keep-remote any number of interrupted attempts can be resumed."
  },
  {
   "property": "C49",
   "status": "partial",
   "theorems": [
    "C49_local_partial",
    "C49_overwrite_refuted"
   ],
   "note": "Violated by the code for edited versions of remote files (C49_overwrite_refuted). Proved for what stands in the local directory only."
  },
  {
   "property": "C50",
   "status": "partial",
   "theorems": [
    "C50_left_refuted",
    "C50_no_retrieve_partial",
    "C50_removed_refuted"
   ],
   "note": "Violated by the code for links with '..': some are left (C50_left_refuted), others are removed though they do not lead to the remote directory (C50_removed_refuted). Proved when no local link has '..' in its text."
  },
  {
   "property": "C61",
   "status": "partial",
   "theorems": [
    "C61_dangling_refuted",
    "C61_dot_refuted",
    "C61_double_star_refuted",
    "C61_hidden_refuted",
    "C61_no_links",
    "C61_patterns_partial",
    "C61_root_refuted"
   ],
   "note": "Violated by the code when the path of the sync directory has wildcards (C61_root_refuted), for a link without target (C61_dangling_refuted), in hidden directories (C61_hidden_refuted), for '**' inside of a name (C61_double_star_refuted) and for a bracketed dot (C61_dot_refuted). Proved for all other pattern files, against a separate specification of patterns; without links the matching never fails."
  },
  {
   "property": "C36",
   "status": "partial",
   "theorems": [
    "C36_first_file_refuted",
    "C36_merge_partial"
   ],
   "note": "Proved as a full three-way merge specification (Merge.v) for every state without clashes, every iteration order and every selection outcome, with the exact contents of the trash afterwards and the recorded times of the last change. Missing: clashes (for those in which the local version is newer see C28_sync_partial), relative links copied as links. Violated by the code for the first file of an empty profile with the default settings: every sync fails (C36_first_file_refuted); for empty directories see C44."
  },
  {
   "property": "C37",
   "status": "partial",
   "theorems": [
    "C37_deleted_refuted",
    "C37_overwritten_refuted",
    "C37_stray_partial",
    "C37_unsafe_upload_refuted",
    "C37_upload_refuted"
   ],
   "note": "Proved for every state without clashes, also at every point where the sync can be cut off. Violated by the code: an excluded file or unsafe link in a new directory is uploaded (C37_upload_refuted, C37_unsafe_upload_refuted), an excluded file in a directory deleted on the other side is destroyed (C37_deleted_refuted), and after such an upload the user's edit of the excluded file is destroyed (C37_overwritten_refuted)."
  },
  {
   "property": "C38",
   "status": "partial",
   "theorems": [
    "C38_again_partial",
    "C38_conflict_partial",
    "C38_removed_refuted"
   ],
   "note": "Proved for the state after a sync without clashes, when no file time lies in the future and the patterns still match the same paths; the second sync may have other settings. C38_conflict_partial: conflicts in which the local version is newer are settled by the first sync. Violated by the code when a remote file has an excluded name (C38_removed_refuted)."
  },
  {
   "property": "C73",
   "status": "partial",
   "theorems": [
    "C73_conflict_partial",
    "C73_directories_refuted",
    "C73_excluded_partial",
    "C73_excluded_refuted",
    "C73_limit_partial"
   ],
   "note": "Proved for the copies, the excluded files and the links after a sync without clashes, when any file is kept. Violated by the code for the directories themselves, whose blocks are not counted unless the whole directory is selected (C73_directories_refuted). If nothing is kept, the links alone may exceed the limit. Also proved with conflicts in which the local version is newer, and with files that become excluded, which count as they were before the sync; they may exceed the limit once copied (C73_excluded_refuted)."
  },
  {
   "property": "C74",
   "status": "partial",
   "theorems": [
    "C74_conflict_partial",
    "C74_cut_off_refuted",
    "C74_excluded_partial",
    "C74_flags_partial",
    "C74_new_refuted"
   ],
   "note": "Proved for a sync without clashes of files that were in the local directory before. Violated by the code for files that the sync brings here (C74_new_refuted), and after an interruption links stay marked as copies, which also the next complete sync does not correct (C74_cut_off_refuted). Also proved with conflicts in which the local version is newer, and with files that become excluded."
  },
  {
   "property": "C75",
   "status": "partial",
   "theorems": [
    "C75_conflict_partial",
    "C75_conflict_refuted",
    "C75_excluded_partial",
    "C75_priority_partial"
   ],
   "note": "Proved for every state without clashes, also when files become excluded. Also proved for the other files when there are conflicts in which the local version is newer. Violated by the code for a file in conflict, whose priority is forgotten (C75_conflict_refuted). If no file is known at all see C36_first_file_refuted."
  },
  {
   "property": "C76",
   "status": "partial",
   "theorems": [
    "C76_catch_up_partial",
    "C76_two_partial"
   ],
   "note": "Proved by induction over the syncs of the other clients, each of a state without clashes except for conflicts in which the version of the client that syncs is the newer one, when no file time lies in the future and known files were not replaced by directories or the reverse. Missing: other clashes."
  },
  {
   "property": "C77",
   "status": "proved",
   "theorems": [
    "C77_join",
    "C77_join_safe"
   ],
   "note": "For an empty local directory and program files in order. Links that lead out of the remote directory are left out, as the code intends. The profile's own exclude patterns do not matter for joining, as in the code."
  },
  {
   "property": "C78",
   "status": "partial",
   "theorems": [
    "C78_first_sync_partial"
   ],
   "note": "Proved when the remote directory is in order at the time of joining and the profile excludes nothing that is there. Missing: clashes of kinds, patterns that match, links in the remote directory."
  },
  {
   "property": "C79",
   "status": "partial",
   "theorems": [
    "C79_conflict_partial",
    "C79_converge_partial",
    "C79_sync_partial"
   ],
   "note": "What the program relies on is an invariant of the history, so that only the users' changes are restricted. The history and the rounds may contain conflicts, as long as the version of the client that syncs is the newer one (C79_conflict_partial says what they come to). Missing: other clashes (tame), links among the first client's files; for convergence also file times in the future. With such clashes the statement fails as C28, C42, C43 and C60 do."
  },
  {
   "property": "C80",
   "status": "partial",
   "theorems": [
    "C80_again_partial",
    "C80_stuck_refuted",
    "C80_sync_partial"
   ],
   "note": "Proved for one sync without clashes: the copies, the removal exactly by agreement, the databases, every instant (C80_sync_partial); while another client still uses the files, the next sync changes nothing (C80_again_partial). Violated by the code for the other clients: once a client's sync has removed a file that another one also excluded, the next syncs of that other one fail (C80_stuck_refuted)."
  },
  {
   "property": "C81",
   "status": "partial",
   "theorems": [
    "C81_conflict_rank_partial",
    "C81_conflict_room_partial",
    "C81_rank_partial",
    "C81_room_partial",
    "C81_small_refuted"
   ],
   "note": "Proved for whole syncs without clashes or with conflicts in which the local version is newer. Each entry counts with at least a block. The second part is for files that take at least a block each: smaller ones give back space, as a link is taken to need a block, and then a file can be kept though one of higher priority and the same size was not (C81_small_refuted). Which directories are kept whole is C31_directories."
  },
  {
   "property": "C82",
   "status": "partial",
   "theorems": [
    "C82_list_partial",
    "C82_option_refuted",
    "C82_other_refuted"
   ],
   "note": "Proved when the configuration file of every profile can be opened and sets the three mandatory options. A profile without configuration file, as while init waits at its prompt, makes the command fail for all profiles (C82_other_refuted), and so does an option that is commented out (C82_option_refuted)."
  },
  {
   "property": "C83",
   "status": "partial",
   "theorems": [
    "C83_accepted_partial",
    "C83_blank_refuted",
    "C83_missing_refuted",
    "C83_prompted_partial",
    "C83_usable_partial"
   ],
   "note": "Proved for templates that mention the mandatory options and leave no option with a default blank (except boolean ones), and answers without line breaks. A template without the line of a mandatory option is refused instead of prompting (C83_missing_refuted); one with a blank optional value is accepted but the file written from it is not (C83_blank_refuted)."
  },
  {
   "property": "C84",
   "status": "partial",
   "theorems": [
    "C84_same_partial"
   ],
   "note": "Proved for whole syncs without clashes or with conflicts in which the local version is newer, also at every point where the sync can be cut off. Missing: other conflicts, and states that are not in order. (For equal times and different contents see C28_equal_times_refuted.)"
  },
  {
   "property": "C85",
   "status": "partial",
   "theorems": [
    "C85_failed",
    "C85_prompt_refuted",
    "C85_refused",
    "C85_resume_partial",
    "C85_rows_refuted",
    "C85_signal",
    "C85_tables_refuted"
   ],
   "note": "Proved for all sequences of attempts with all interruptions (C85_resume_partial, C85_signal; for attempts that fail by themselves also C85_refused, C85_failed) except four windows in which the code violates it: killed at the prompt, with info.json but no configuration file, the profile is unusable (C85_prompt_refuted); interrupted while the tables of the remote database are created, the remote directory is (C85_tables_refuted); killed between info.json and the commit of the database, the profile counts as initialized without its rows (C85_rows_refuted); and while info.json is rewritten (C88_info_refuted)."
  },
  {
   "property": "C86",
   "status": "partial",
   "theorems": [
    "C86_cancel_refuted",
    "C86_finish_first_partial"
   ],
   "note": "Violated by the code: reset refuses every partially initialized profile and changes nothing (C86_cancel_refuted), though the message tells the user to run it. What holds is that reset works after the initialization has been resumed and finished (C86_finish_first_partial)."
  },
  {
   "property": "C87",
   "status": "partial",
   "theorems": [
    "C87_again_partial",
    "C87_gone",
    "C87_stuck_refuted"
   ],
   "note": "C87_gone is the first part. The second holds while info.json and the configuration file are there (C87_again_partial); after info.json is removed, reset and sync fail, and init keeps the rows of the old database (C87_stuck_refuted)."
  },
  {
   "property": "C88",
   "status": "partial",
   "theorems": [
    "C88_info_refuted",
    "C88_usable_partial"
   ],
   "note": "Proved for every ending except one that leaves info.json empty; that one makes the profile unusable for every command (C88_info_refuted)."
  },
  {
   "property": "C89",
   "status": "proved",
   "theorems": [
    "C89_any_name",
    "C89_init",
    "C89_others",
    "C89_reset"
   ],
   "note": "C89_init, C89_reset and C89_others for names and values not beginning with a dash, C89_any_name for every name after \"--\". The model is of argparse in CPython 3.11 as the program uses it."
  },
  {
   "property": "C90",
   "status": "proved",
   "theorems": [
    "C90_init",
    "C90_known",
    "C90_others",
    "C90_reset",
    "C90_words"
   ],
   "note": "C90_init, C90_reset and C90_others; C90_words (command lines of plain words) and C90_known (no option is ignored). An argument names an option by an abbreviation of its long name, with or without \"=value\", or by a group of letters containing its own."
  },
  {
   "property": "C91",
   "status": "partial",
   "theorems": [
    "C91_debug_partial",
    "C91_debug_refuted",
    "C91_message",
    "C91_status"
   ],
   "note": "C91_status and C91_message are the first part. With --debug, errors of commands give a trace (C91_debug_partial), errors in the command line itself do not (C91_debug_refuted)."
  },
  {
   "property": "C92",
   "status": "partial",
   "theorems": [
    "C92_accepted",
    "C92_harmless",
    "C92_message_partial",
    "C92_overlap_refuted",
    "C92_raised_refuted",
    "C92_valid"
   ],
   "note": "C92_accepted, C92_harmless and C92_valid are the parts about directories that are accepted. Overlapping directories are not refused (C92_overlap_refuted), and a file or a dangling link in the way raises an exception (C92_raised_refuted); otherwise there is a message (C92_message_partial)."
  },
  {
   "property": "C93",
   "status": "partial",
   "theorems": [
    "C93_narrow_refuted",
    "C93_updates",
    "C93_width_partial"
   ],
   "note": "The width for terminals of at least 10 columns (C93_width_partial; narrower ones are overrun, C93_narrow_refuted); the updates in full (C93_updates). The fractions are exact in the model, floats in the code."
  },
  {
   "property": "C94",
   "status": "partial",
   "theorems": [
    "C94_completed_partial",
    "C94_completed_refuted",
    "C94_contract",
    "C94_path_partial",
    "C94_relative_refuted"
   ],
   "note": "Values whose '..' do not lead out of '~' and that do not begin with two slashes (C94_path_partial), contract_user undone by expanduser for every path (C94_contract), completions below the home directory (C94_completed_partial). Values such as '~/../x', which the prompt itself offers for every directory outside the home directory, are accepted and then used as a relative path (C94_relative_refuted, C94_completed_refuted)."
  },
  {
   "property": "C95",
   "status": "partial",
   "theorems": [
    "C95_brackets_refuted",
    "C95_dir_partial",
    "C95_home_dir_partial",
    "C95_home_partial",
    "C95_name_partial"
   ],
   "note": "Texts without wildcards, absolute or with '~/', naming a directory or the beginning of a name that is not itself a link (C95_name_partial, C95_dir_partial, C95_home_partial, C95_home_dir_partial). Brackets that were typed are taken as a pattern (C95_brackets_refuted). Texts with '..' and relative texts are not modelled."
  },
  {
   "property": "C96",
   "status": "partial",
   "theorems": [
    "C96_excluded_refuted",
    "C96_init_partial",
    "C96_present_refuted",
    "C96_reset_partial"
   ],
   "note": "What is moved fits, or nothing but the program's own directory has changed (C96_init_partial, under the conditions of C72; C96_reset_partial, under those of C47). The refusal is not exact: excluded files (C96_excluded_refuted) and files that are present already (C96_present_refuted) are counted. The sizes are an arbitrary function of the entry, the same in both directories."
  },
  {
   "property": "C97",
   "status": "partial",
   "theorems": [
    "C97_counted_partial",
    "C97_ends_refuted",
    "C97_other_refuted"
   ],
   "note": "Proved for directories in the normal form that are not one in the other (C97_counted_partial). Violated when LocalDir begins with two slashes, which the configuration accepts: an opened file is counted as another one (C97_other_refuted) or the daemon ends with an exception (C97_ends_refuted)."
  },
  {
   "property": "C98",
   "status": "partial",
   "theorems": [
    "C98_dash",
    "C98_dash_refuted",
    "C98_name_partial"
   ],
   "note": "Proved for the accepted names that do not begin with a dash (C98_name_partial). Violated for the others: such a profile can be made, and the daemon never syncs it because its name is taken for an option (C98_dash, C98_dash_refuted)."
  },
  {
   "property": "C99",
   "status": "proved",
   "theorems": [
    "C99_messages",
    "C99_printed",
    "C99_raised"
   ],
   "note": "C99_messages: the messages are different and are exactly those of the missing, unrecognized and wrong options. C99_printed: the lines on stderr, for every content of the file. C99_raised: the command fails exactly when there is one."
  },
  {
   "property": "C100",
   "status": "partial",
   "theorems": [
    "C100_cooldown_partial",
    "C100_ends_refuted",
    "C100_other_refuted",
    "C100_raised_partial"
   ],
   "note": "From the events to the increments, when the database refuses nothing but updates and the directories are in the normal form and not one in the other (C100_raised_partial, C100_cooldown_partial). Missing: the refusals of C56 and the directories of C97, for which the code violates it (C100_other_refuted, C100_ends_refuted)."
  },
  {
   "property": "C101",
   "status": "proved",
   "theorems": [
    "C101_blocked",
    "C101_cases",
    "C101_created",
    "C101_found",
    "C101_selected"
   ],
   "note": "C101_found and C101_selected when the path leads to a directory, C101_created when it is missing, C101_blocked when something else is in its place; C101_cases: there are no other cases."
  },
  {
   "property": "C102",
   "status": "proved",
   "theorems": [
    "C102_history",
    "C102_unknown"
   ],
   "note": "C102_history, for commands that complete, and C102_unknown, in a profiles directory with nothing but directories in it. Interrupted commands are the subject of C85 to C88."
  },
  {
   "property": "C103",
   "status": "partial",
   "theorems": [
    "C103_at_once_refuted",
    "C103_deleted_refuted"
   ],
   "note": "The code violates it (C103_at_once_refuted, C103_deleted_refuted); the same syncs one after the other keep both versions (C103_example). Missing: a theorem for the moments at which the lock of the remote database makes the other sync fail; for syncs one after the other see C76 to C84."
  }
 ]
}