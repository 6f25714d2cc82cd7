{
 "claims": [
  {
   "property": "C01",
   "status": "proved",
   "theorems": [
    "files_are_byte_arrays",
    "damaged_files_never_lie",
    "empty_write_extends_refuted"
   ],
   "note": "Sequential calls on any number of files; a zero-length write past the end extends the file (refuted theorem), excluded from the positive statement."
  },
  {
   "property": "C02",
   "status": "proved",
   "theorems": [
    "truncated_bytes_never_return",
    "no_blocks_beyond_end",
    "blocks_bounded",
    "truncated_bytes_return_refuted",
    "float_ceil_is_exact"
   ],
   "note": "Holds below 2^53 bytes; refuted at 2^54 because the block count is computed with float division."
  },
  {
   "property": "C03",
   "status": "proved",
   "theorems": [
    "open_block_is_current",
    "get_opens_the_block",
    "get_never_fails"
   ],
   "note": "Under collision freeness of the hash among the contents that occur; get() fails only after a failed upload on which a deduplicated block depended (C04)."
  },
  {
   "property": "C04",
   "status": "proved",
   "theorems": [
    "no_block_is_lost",
    "failed_upload_keeps_block",
    "deduplicated_block_lost_refuted"
   ],
   "note": "Holds for every execution in which no upload fails on which an unmodified block depends; the code loses a block otherwise (deduplicated_block_lost_refuted)."
  },
  {
   "property": "C05",
   "status": "proved",
   "theorems": [
    "reference_counts_are_exact",
    "hashes_are_unique"
   ],
   "note": ""
  },
  {
   "property": "C06",
   "status": "proved",
   "theorems": [
    "deleted_objects_are_unreferenced",
    "only_scheduled_objects_are_deleted"
   ],
   "note": ""
  },
  {
   "property": "C07",
   "status": "proved",
   "theorems": [
    "no_orphaned_objects",
    "failed_upload_leaks_refuted"
   ],
   "note": "The exception is an upload that stores its object and reports a failure (failed_upload_leaks_refuted)."
  },
  {
   "property": "C08",
   "status": "proved",
   "theorems": [
    "cache_size_is_exact",
    "eviction_enforces_limits"
   ],
   "note": ""
  },
  {
   "property": "C09",
   "status": "proved",
   "theorems": [
    "flush_cleans",
    "flush_makes_durable",
    "start_flush_registers",
    "drop_empties_cache",
    "drop_restores_limit",
    "start_flush_unregistered_refuted",
    "flush_not_stored_refuted",
    "concurrent_drop_refuted"
   ],
   "note": "With the exact exceptions: start_flush may return while another task hashes the block; flush may return while the object is being stored for another block; concurrent drop() calls corrupt the limit."
  },
  {
   "property": "C10",
   "status": "proved",
   "theorems": [
    "locks_exclude_each_other",
    "free_keys_are_acquired",
    "only_held_keys_block",
    "cancelled_release_refuted"
   ],
   "note": "Includes cancellation of waiting tasks. A cancelled release leaves the key locked (refuted theorem)."
  },
  {
   "property": "C11",
   "status": "proved",
   "theorems": [
    "linked_dict_is_ordered_map",
    "iteration_is_complete",
    "quiet_iteration_is_in_order",
    "no_cursor_left_behind"
   ],
   "note": "Iterations may interleave with each other and with modifications; a key that is moved to the end during an iteration may be yielded again."
  },
  {
   "property": "C12",
   "status": "proved",
   "theorems": [
    "inode_cache_is_transparent",
    "flush_updates_table",
    "inode_cache_is_bounded",
    "kept_inode_refuted"
   ],
   "note": "For callers that follow the documented rule not to use an inode object after another call that may expire it; refuted without the rule."
  },
  {
   "property": "C13",
   "status": "proved",
   "theorems": [
    "lookup_returns_last_binding",
    "other_names_undisturbed",
    "rename_same_refuted"
   ],
   "note": "Histories of all modelled calls, including steps of lock_tree and remove_tree; assumptions about the kernel in FsSpec.allowed."
  },
  {
   "property": "C14",
   "status": "proved",
   "theorems": [
    "link_count_exact",
    "unlinked_inodes_purged"
   ],
   "note": ""
  },
  {
   "property": "C15",
   "status": "proved",
   "theorems": [
    "name_count_exact",
    "name_count_refuted",
    "removexattr_refuted"
   ],
   "note": "name_count_refuted and removexattr_refuted show the two exceptions in the statement."
  },
  {
   "property": "C16",
   "status": "proved",
   "theorems": [
    "getxattr_returns_last_value",
    "listxattr_exact",
    "new_inodes_have_no_xattrs",
    "removexattr_refuted"
   ],
   "note": "removexattr_refuted: the exception. That attribute calls do not change directories is part of entries_of (C13)."
  },
  {
   "property": "C17",
   "status": "proved",
   "theorems": [
    "listing_sound",
    "listing_complete",
    "listing_exact",
    "listing_progress"
   ],
   "note": "Any number of readdir calls of any reply size, with any calls handled in between."
  },
  {
   "property": "C18",
   "status": "proved",
   "theorems": [
    "locked_inode_intact",
    "locked_directory_persists",
    "rejected_call_changes_nothing",
    "locked_link_count_refuted"
   ],
   "note": "Locked inodes; that lock_tree locks all of a tree is part of C21."
  },
  {
   "property": "C19",
   "status": "proved",
   "theorems": [
    "failsafe_rejects_modifications",
    "failsafe_is_readonly",
    "failsafe_forget"
   ],
   "note": ""
  },
  {
   "property": "C20",
   "status": "proved",
   "theorems": [
    "copy_tree_faithful",
    "copy_tree_consistent",
    "copy_tree_errors",
    "copy_tree_collision",
    "copy_tree_ends",
    "copy_tree_total",
    "copy_own_xattr_refuted",
    "copy_into_locked_refuted",
    "copy_into_removed_refuted",
    "copy_collision_refuted"
   ],
   "note": "For every consistent file system without directory cycles and every choice of batches. No other request is handled while the tree is copied and cached blocks have been written. Exceptions (refuted): the extended attributes of the source directory itself are not copied, a locked or removed target is not rejected, a name in both directories makes the copy fail and leaves a detached directory."
  },
  {
   "property": "C21",
   "status": "proved",
   "theorems": [
    "lock_tree_locks_everything",
    "locked_tree_stays",
    "lock_tree_is_calls",
    "remove_tree_exact",
    "remove_tree_ends",
    "no_cycles",
    "remove_tree_race_refuted"
   ],
   "note": "Locking with any other calls in between; removal without interference; remove_tree_race_refuted is the interference by which a file is lost."
  },
  {
   "property": "C22",
   "status": "proved",
   "theorems": [
    "referenced_inodes_exist",
    "held_references_can_be_dropped",
    "lookup_counts_exact",
    "lookup_count_refuted"
   ],
   "note": "lookup_count_refuted: the leak after failing calls."
  },
  {
   "property": "C23",
   "status": "proved",
   "theorems": [
    "path_walks",
    "path_sound",
    "path_of_inode",
    "path_of_entry",
    "path_found",
    "deep_path_refuted",
    "root_path_refuted"
   ],
   "note": "The row found by its inode may be any of several (hard links)."
  },
  {
   "property": "C24",
   "status": "proved",
   "theorems": [
    "backup_restores_exactly",
    "download_never_wrong",
    "gap_after_shrink_refuted",
    "meta_name_parsed",
    "params_name_parsed",
    "meta_name_inj",
    "params_name_inj",
    "names_differ",
    "foreign_name_refuted"
   ],
   "note": "Under the condition that SQLite never writes past the block after the end of the database file; refuted without it."
  },
  {
   "property": "C25",
   "status": "proved",
   "theorems": [
    "expire_preserves_backups",
    "expire_keeps_newest",
    "expire_removes_unneeded",
    "expire_never_fails",
    "gap_filled_later_refuted"
   ],
   "note": "Under the same gap-free condition."
  },
  {
   "property": "C26",
   "status": "proved",
   "theorems": [
    "unmarked_blocks_are_stored",
    "gap_after_shrink_refuted"
   ],
   "note": "Under the same gap-free condition; refuted without it."
  },
  {
   "property": "C27",
   "status": "proved",
   "theorems": [
    "mount_uses_current_metadata",
    "mount_uses_current_cache",
    "clean_mount_succeeds",
    "split_brain_refuted",
    "interrupted_restore_refuted",
    "restored_cache_refuted"
   ],
   "note": "At most one operation at a time runs on the file system.  The three _refuted theorems show that the code needs each of the three conditions."
  },
  {
   "property": "C28",
   "status": "proved",
   "theorems": [
    "crash_is_repairable",
    "errors_require_check",
    "crash_at_unmount_refuted"
   ],
   "note": "The exception (crash_at_unmount_refuted) is a crash between the last two writes."
  },
  {
   "property": "C29",
   "status": "proved",
   "theorems": [
    "params_atomic",
    "params_durable",
    "history_safe",
    "object_replaced",
    "object_power_refuted"
   ],
   "note": "A rename is one operation of the directory; directory operations become durable in order."
  },
  {
   "property": "C30",
   "status": "proved",
   "theorems": [
    "freeze_thaw",
    "freeze_total",
    "thaw_error_refuted",
    "thaw_lenient_refuted"
   ],
   "note": "repr and literal_eval modelled for strings, bytes, integers, booleans, None and, with any printing and reading, floats; complex numbers and further literal syntax not modelled"
  },
  {
   "property": "C31",
   "status": "proved",
   "theorems": [
    "stored_is_read_back",
    "decrypt_after_encrypt"
   ],
   "note": "For every cipher, compressor and serialisation that can be inverted (explicit hypotheses), every buffer size."
  },
  {
   "property": "C32",
   "status": "proved",
   "theorems": [
    "altered_data_is_detected",
    "read_is_authentic"
   ],
   "note": "Stated with an explicit forgery: reading altered data succeeds only if it contains a valid HMAC of a message never authenticated."
  },
  {
   "property": "C33",
   "status": "proved",
   "theorems": [
    "read_is_authentic",
    "lookup_is_authentic",
    "encryption_is_not_mixed",
    "key_separation_refuted"
   ],
   "note": "lookup_is_authentic assumes that strings in the presented metadata contain no NUL; read_is_authentic does not. key_separation_refuted shows that the condition about names ending in 'meta' is necessary."
  },
  {
   "property": "C34",
   "status": "proved",
   "theorems": [
    "encoding_is_injective",
    "encoding_refuted"
   ],
   "note": "encoding_refuted: the collision with NUL characters."
  },
  {
   "property": "C35",
   "status": "proved",
   "theorems": [
    "distinct_paths",
    "name_recovered",
    "temporary_distinct",
    "temporary_skipped",
    "no_object_in_place_of_directory",
    "paths_on_disk",
    "special_names_refuted"
   ],
   "note": "For all names except '', '.' and '..', which resolve to a directory (special_names_refuted)."
  },
  {
   "property": "C36",
   "status": "proved",
   "theorems": [
    "read_returns_stored",
    "open_tells",
    "only_large_metadata_fails",
    "completed_is_stored",
    "disk_is_store",
    "crash_keeps_objects",
    "delete_exact",
    "shared_temp_refuted",
    "short_write_refuted"
   ],
   "note": "For histories without overlapping uploads of one key (shared_temp_refuted) and without short writes (short_write_refuted). The operating system's file system is modelled as a map from paths to inodes; power failure is C29."
  },
  {
   "property": "C37",
   "status": "proved",
   "theorems": [
    "listing_sound",
    "listing_once",
    "listing_complete",
    "long_prefix_refuted"
   ],
   "note": "Complete for prefixes up to 's3ql_data_' plus three characters and all prefixes of non-data objects; longer ones miss objects in subdirectories (long_prefix_refuted). The listing is of one snapshot of the directory tree."
  },
  {
   "property": "C38",
   "status": "proved",
   "theorems": [
    "local_exact",
    "parallel_sound",
    "parallel_exact",
    "s3_returns",
    "s3_raises",
    "s3_unknown_key",
    "swift_exact",
    "s3_exception_refuted",
    "s3_missing_refuted",
    "s3_hidden_error_refuted",
    "swift_abort_refuted"
   ],
   "note": "local, ParallelRunner (any schedule of workers), s3c4 and swift bulk deletion against any server; lists without duplicates"
  },
  {
   "property": "C39",
   "status": "proved",
   "theorems": [
    "retry_after_clamped",
    "retry_returns",
    "retry_raises",
    "retry_gives_up",
    "retry_pauses",
    "retry_ends",
    "retry_finishes",
    "retry_persists"
   ],
   "note": "for every sequence of outcomes; times are rational numbers instead of floats"
  },
  {
   "property": "C40",
   "status": "proved",
   "theorems": [
    "download_starts_over",
    "fetch_exact",
    "gs_exact",
    "fetch_tail_refuted",
    "gs_resume_refuted",
    "gs_torn_refuted"
   ],
   "note": "any sequence of attempts; the server is reduced to what each attempt receives"
  },
  {
   "property": "C41",
   "status": "proved",
   "theorems": [
    "headers_roundtrip",
    "headers_roundtrip_plain",
    "extract_checked",
    "headers_small",
    "headers_count",
    "utf8_decode_exact",
    "b64_truncated",
    "headers_space_refuted",
    "headers_inf_refuted"
   ],
   "note": "any checksum function; header names by number (C79 has the names); the transport removes spaces around header values"
  },
  {
   "property": "C42",
   "status": "proved",
   "theorems": [
    "s3_list_complete",
    "s3_list_ends",
    "sw_list_complete",
    "gs_list_complete",
    "swift_short_page_refuted",
    "gs_empty_page_refuted"
   ],
   "note": "any server order, objects may change between requests; concrete servers meeting the premises: s3_server_right, sw_server_right, gs_server_right"
  },
  {
   "property": "C43",
   "status": "proved",
   "theorems": [
    "closing_not_idle",
    "refused_close_refuted",
    "body_exact",
    "whole_body_sent",
    "short_body_fails",
    "requests_separated",
    "idle_is_clean",
    "response_matches",
    "failed_not_idle",
    "broken_idle_refuted",
    "overlong_body_refuted",
    "unsolicited_continue_refuted"
   ],
   "note": "h11 is modelled by its connection states; headers other than the announced length, Expect and Connection are left out."
  },
  {
   "property": "C44",
   "status": "proved",
   "theorems": [
    "not_shared",
    "not_idle_while_used",
    "not_overcommitted",
    "users_bounded",
    "handed_out_idle",
    "no_leak",
    "closed_pool_is_empty",
    "closed_pool_refuses",
    "borrower_proceeds"
   ],
   "note": ""
  },
  {
   "property": "C45",
   "status": "proved",
   "theorems": [
    "every_item_once",
    "at_most_once",
    "in_order",
    "in_progress_bounded",
    "failure_reported",
    "failure_stays",
    "pipeline_proceeds",
    "pipeline_ends"
   ],
   "note": "The tasks of trio as atomic steps between checkpoints; a memory channel as a queue."
  },
  {
   "property": "C46",
   "status": "proved",
   "theorems": [
    "check_consistent",
    "check_consistent_input",
    "check_no_spurious",
    "check_clean",
    "check_reports",
    "second_check",
    "check_keeps",
    "check_places_all",
    "name_capture_refuted",
    "attribute_rename_refuted",
    "attribute_hang_refuted",
    "lost_found_refuted",
    "second_check_refuted"
   ],
   "note": "whole Fsck.check as a function on the tables; counterexamples for the two unnoticed cases, for endless renaming, for a missing lost+found inode and for the second check"
  },
  {
   "property": "C47",
   "status": "proved",
   "theorems": [
    "cached_data_survives",
    "cache_lost_refuted"
   ],
   "note": "data is the same up to a collision of sha256; the premise that rows tell the truth is necessary: cache_lost_refuted"
  },
  {
   "property": "C48",
   "status": "proved",
   "theorems": [
    "rescued_name",
    "rescue_possible",
    "long_name_refuted"
   ],
   "note": "the bound of 1000 entries is exact: long_name_refuted"
  },
  {
   "property": "C49",
   "status": "proved",
   "theorems": [
    "loops_reachable",
    "loops_kept",
    "check_reachable",
    "root_loop_refuted",
    "deep_tree_refuted"
   ],
   "note": "for every order of rows and every parent graph on which the check ends without exception"
  },
  {
   "property": "C50",
   "status": "proved",
   "theorems": [
    "verify_data_exact",
    "verify_metadata_exact",
    "verify_intact",
    "verify_terminates",
    "verify_progress",
    "verify_failed",
    "verify_abort_refuted",
    "unencrypted_aborts",
    "metadata_only_refuted",
    "reports_exact",
    "report_kept",
    "same_file_refuted",
    "data_name_inj"
   ],
   "note": "For every interleaving of the workers. Refuted: a row without hash (even if skipped) or an object stored without encryption aborts the run and nothing is known about the rest; without --data damaged content is not noticed; with the same name for both reports they overwrite each other."
  },
  {
   "property": "C51",
   "status": "proved",
   "theorems": [
    "expire_lossless",
    "expire_lossless_partial_deletion",
    "expire_keeps_ranges",
    "expire_true_ages",
    "expire_range_filled",
    "expire_keeps_newest",
    "newest_removed_refuted",
    "all_removed_refuted",
    "expire_partition",
    "expire_proportion",
    "upgrade_order"
   ],
   "note": "Expiring is lossless for every age range now and after any number of further backups; over every history of backups and runs a range holds a kept backup iff it would hold one had nothing been removed. The newest backup is only safe if the first boundary is 1 (refuted otherwise); boundary 0 removes everything (refuted)."
  },
  {
   "property": "C52",
   "status": "proved",
   "theorems": [
    "split_exact",
    "split_ends",
    "split_deterministic",
    "split_zero_refuted",
    "everything_committed",
    "batch_size_bound",
    "still_clock_refuted"
   ],
   "note": ""
  },
  {
   "property": "C53",
   "status": "proved",
   "theorems": [
    "passphrase_opens",
    "passphrase_data",
    "passphrase_refused",
    "passphrase_others_fail",
    "passphrase_copies",
    "backup_copy_refuted",
    "recover_opens",
    "recover_malformed",
    "recover_wrong_refuted",
    "master_key_accepted",
    "printed_key_accepted",
    "enter_same",
    "enter_refuted"
   ],
   "note": "Crash after any number of stores. The HMAC is any function of 32 bytes results: a wrong passphrase is refused unless the HMACs coincide. Refuted: the backup copies cannot be copied over s3ql_passphrase, because the object name is authenticated; recover-key accepts any key of the right length and overwrites all copies; a passphrase ending in white space differs between terminal and redirected input."
  },
  {
   "property": "C54",
   "status": "proved",
   "theorems": [
    "mkfs_refuses",
    "mkfs_others",
    "mkfs_mountable",
    "mkfs_interrupted",
    "mount_checked",
    "fresh_empty",
    "plain_leftover_refuted",
    "params_lost_refuted"
   ],
   "note": "Refuted: mkfs --plain over a left s3ql_passphrase creates a file system that cannot be mounted; a file system whose s3ql_params is lost is not noticed and its master key is overwritten."
  },
  {
   "property": "C55",
   "status": "proved",
   "theorems": [
    "value_plain",
    "value_escaped",
    "config_value",
    "config_plain",
    "default_overrides_refuted",
    "percent_refuted",
    "config_accepted",
    "config_unknown",
    "config_insecure",
    "config_no_file",
    "compress_accepted",
    "options_cli",
    "options_config",
    "options_known",
    "options_roundtrip",
    "canonical_location",
    "canonical_same_location",
    "canonical_refuted",
    "canonical_local",
    "canonical_root_refuted"
   ],
   "note": "Configuration after python's INI syntax; pydantic's integer conversion is any function. Refuted: values of a DEFAULT section override earlier explicit ones; a single % is an uncaught exception; s3 and b2 URLs with and without final slash are not unified."
  },
  {
   "property": "C56",
   "status": "proved",
   "theorems": [
    "threads_bounds",
    "threads_memory",
    "threads_cores",
    "threads_no_core_refuted",
    "cache_entries_bound",
    "cache_entries_positive",
    "cache_entries_refuted",
    "statfs_consistent",
    "statfs_recent",
    "statfs_stale_refuted",
    "extstat_exact",
    "extstat_overflow_refuted"
   ],
   "note": "Memory below 2^53 bytes (exact floats); with an explicitly requested number of cache entries the result can be negative (refuted); statistics overflow for sparse files of 2^63 bytes together (refuted)."
  },
  {
   "property": "C57",
   "status": "proved",
   "theorems": [
    "entries_reachable",
    "removed_is_empty",
    "rename_into_removed_refuted"
   ],
   "note": ""
  },
  {
   "property": "C58",
   "status": "proved",
   "theorems": [
    "headers_correct",
    "set_replaces",
    "del_removes",
    "order_kept"
   ],
   "note": "str.lower is any function."
  },
  {
   "property": "C59",
   "status": "proved",
   "theorems": [
    "backup_restores_exactly"
   ],
   "note": "Non-final passes may run concurrently with writes."
  },
  {
   "property": "C60",
   "status": "proved",
   "theorems": [
    "url_escape_injective",
    "url_escape_is_file_name",
    "cache_files_distinct",
    "object_escape_injective",
    "object_unescape",
    "fsck_escape_is_file_name",
    "fsck_escape_partly",
    "fsck_escape_refuted"
   ],
   "note": "fsck's escape is not injective for paths with underscores (fsck_escape_refuted)."
  },
  {
   "property": "C61",
   "status": "proved",
   "theorems": [
    "block_cache_never_deadlocks"
   ],
   "note": ""
  },
  {
   "property": "C62",
   "status": "proved",
   "theorems": [
    "requests_do_not_crash",
    "unlink_control_refuted"
   ],
   "note": ""
  },
  {
   "property": "C63",
   "status": "proved",
   "theorems": [
    "count_exact"
   ],
   "note": "concurrent calls from several threads are not modelled"
  },
  {
   "property": "C64",
   "status": "proved",
   "theorems": [
    "upgrade_complete",
    "upgrade_crash",
    "upgrade_resume",
    "upgrade_stuck_refuted",
    "upgrade_again_refuted",
    "upgrade_refused",
    "convert_fields",
    "convert_defined"
   ],
   "note": "The database is a value of any type; block-wise transfer is C24, replacing the local parameters is C29. Refuted: interrupted between write_params and upload_params, upgrade ends with KeyError and all other programs tell to run upgrade; also for upgraded file systems that were used since."
  },
  {
   "property": "C65",
   "status": "proved",
   "theorems": [
    "int_of_decimal",
    "object_id_name",
    "object_name_inj",
    "check_ids_exact",
    "alias_hides_refuted",
    "alias_crash_refuted"
   ],
   "note": "Under the condition that foreign names do not read as numbers; without it refuted (s3ql_data_01)."
  },
  {
   "property": "C66",
   "status": "proved",
   "theorems": [
    "v4_accepted",
    "v4_history",
    "cached_key_right",
    "v4_unambiguous",
    "v2_accepted",
    "addressed_right",
    "addresses_fun",
    "b2_addressing",
    "nossl_refuted",
    "ipv6_refuted",
    "host_mismatch",
    "addressed_refuted"
   ],
   "note": "Digests are any functions; the specification computes the signature from what arrives on the wire. Refuted: without TLS on port 80 (the default then) or 443 the signed host differs from the sent one, so version 4 is never accepted, nor with an IPv6 address as host; a bucket name that is a prefix of the host name is left out of the path."
  },
  {
   "property": "C67",
   "status": "proved",
   "theorems": [
    "uploaded_noted",
    "never_early_noted",
    "state_noted",
    "uploaded",
    "never_early",
    "starved_refuted"
   ],
   "note": "Requests and other uploads may happen between any two steps of the task. Refuted as documented (not modified for the delay): a modified block that is read from time to time while another one is written is never uploaded."
  },
  {
   "property": "C68",
   "status": "proved",
   "theorems": [
    "swift_one_login",
    "swift_login_needed",
    "swift_request_issued",
    "swift_request_right",
    "swift_rejected_unused",
    "swift_host_refuted",
    "gs_one_refresh",
    "gs_unexpired",
    "gs_tokens_bounded",
    "gs_rejected_unused",
    "gs_herd",
    "gs_renewal_refuted"
   ],
   "note": "Any number of concurrent requests with any answers. Refuted: with Google Storage one new token for each rejected one (a late 401 discards the new token); with Swift that a token goes only to the host it was issued for (if the host changes)."
  },
  {
   "property": "C69",
   "status": "proved",
   "theorems": [
    "upload_arrives",
    "upload_delimited",
    "unwrap_any",
    "unwrap_wrap",
    "wrap_fails",
    "json_read",
    "legacy_read",
    "path_refers",
    "upload_refers",
    "wrap_readable_refuted"
   ],
   "note": "The specification reads JSON, the parts of the request and paths independently of the program. That the service goes by length is what the comment in gs.py says; for a service that looks for the delimiter the exact condition is proved. Refuted: every accepted value can be read back (inf)."
  },
  {
   "property": "C70",
   "status": "proved",
   "theorems": [
    "marked",
    "unconcerned",
    "status_change",
    "content_change",
    "status_history",
    "content_history",
    "setattr_exact",
    "setattr_times",
    "access_read",
    "access_seen",
    "access_only",
    "failed_same",
    "target_fixed",
    "symlink_made",
    "xattr_set",
    "xattr_removed",
    "truncate_refuted",
    "failed_write_refuted",
    "bad_time_refuted"
   ],
   "note": "All requests of the file system except for copy_tree, lock_tree and remove_tree of the control file. Refuted in full: truncation through setattr does not set the modification time; a write that fails after some blocks and a setattr with a time that cannot be stored leave changes behind without any time being set."
  },
  {
   "property": "C71",
   "status": "proved",
   "theorems": [
    "entry_exact",
    "history_true",
    "dirty_exact",
    "clean_same",
    "block_read_exact",
    "block_write_exact",
    "block_truncate_exact",
    "hashed_exact",
    "packed_exact",
    "plain_exact",
    "local_file_exact",
    "local_size",
    "entry_short_refuted",
    "after_short_refuted",
    "local_short_refuted",
    "empty_write_refuted"
   ],
   "note": "Any sequence of accesses to an entry, any positions, sizes of buffers and results of the system. Refuted if the system accepts a part of a write (disk full): the entry forgets the rest and misplaces the next write, and a local backend stores a truncated object and reports success."
  },
  {
   "property": "C72",
   "status": "proved",
   "theorems": [
    "expand_exact",
    "means_unique",
    "means_total",
    "expand_none",
    "expand_after",
    "ro_refused",
    "value_refuted",
    "value_crash",
    "empty_option_refuted",
    "last_refuted",
    "second_refuted"
   ],
   "note": "Any arguments and options. Refuted: values with an equality sign (ValueError), empty options (the rest is not taken as options), -o at the end (IndexError), a second -o."
  },
  {
   "property": "C73",
   "status": "proved",
   "theorems": [
    "umount_waits",
    "umount_complete",
    "umount_refused",
    "umount_given_up",
    "umount_progress",
    "umount_ends",
    "umount_gone",
    "pauses_bounded",
    "lazy_exact",
    "umount_failed_refuted",
    "umount_hidden_refuted",
    "umount_reuse_refuted"
   ],
   "note": "All interleavings of umount.s3ql with the daemon and with other processes. Refuted: that success means that everything was uploaded (the daemon may have failed); that it waits if the process of the daemon cannot be seen; that it ends if the number is used by a process with the same command line."
  },
  {
   "property": "C74",
   "status": "proved",
   "theorems": [
    "plain_pass",
    "once_at_most",
    "once_first",
    "rate_apart",
    "rate_dropped",
    "plain_everywhere",
    "written_sound",
    "once_not_filed",
    "rate_not_filed",
    "single_asks",
    "file_refuted",
    "boot_refuted",
    "screen_exact",
    "screen_instead",
    "redirected",
    "leftover_refuted",
    "enabled_exact",
    "console_level",
    "file_level",
    "warnings_considered"
   ],
   "note": "All sequences of messages and times, all options. Refuted: that what is on the console is also in the log file (messages to be written once never are, progress is only at the end); that the first message of its kind is written (not within the rate limit after the start of the system); that an update replaces the one before on the terminal (the end of a longer one remains)."
  },
  {
   "property": "C75",
   "status": "proved",
   "theorems": [
    "wal_exact",
    "wal_durable",
    "snapshot_exact",
    "inhibited_same",
    "close_exact",
    "download_exact",
    "download_closed",
    "mkfs_empty",
    "download_crashed_refuted",
    "download_cleared_refuted",
    "lost_refuted"
   ],
   "note": "All sequences of transactions, checkpoints (page by page), crashes, opening and closing. Refuted: that a downloaded database is the one that was uploaded (the log left behind by a crash is applied to it), also after s3qladm clear; that transactions since the last checkpoint survive a power failure."
  },
  {
   "property": "C76",
   "status": "proved",
   "theorems": [
    "clear_done",
    "clear_only",
    "clear_local",
    "clear_hidden_refuted",
    "clear_failed_refuted"
   ],
   "note": "Any backend whose listing and deletion are right (C42 and the properties of Delete), while others create and remove objects. Refuted: that no object is left (temporary ones are not listed); that after a failure the file system cannot be mounted (data is deleted before the parameters)."
  },
  {
   "property": "C77",
   "status": "proved",
   "theorems": [
    "conc_answers",
    "conc_size",
    "conc_contents",
    "conc_ends",
    "conc_writes_refuted",
    "conc_read_refuted",
    "conc_truncate_refuted",
    "conc_read_truncate_refuted"
   ],
   "note": "Any number of requests on any number of files, interleaved block by block; linearizable if overlapping requests are not sent at the same time, as the kernel does. Refuted without that: overlapping writes, reads during writes or truncations, truncations during writes. Stored objects are not damaged (C01 for that)."
  },
  {
   "property": "C78",
   "status": "proved",
   "theorems": [
    "dial_password",
    "dial_storage",
    "dial_secret",
    "dial_proxy",
    "dial_proxy_invalid",
    "dial_tunnel",
    "dial_connect",
    "dial_checksum",
    "dial_requests",
    "dial_works",
    "dial_dangling",
    "dial_login",
    "dial_proxy_swift_refuted",
    "dial_proxy_b2_refuted",
    "dial_port_refuted",
    "dial_port_b2_refuted",
    "dial_checksum_refuted",
    "dial_http_refuted"
   ],
   "note": "All HTTP backends with any options, environment and answers of the servers; storage URLs and server URLs are taken as parsed. Refuted: that every backend respects the proxy variables (B2 login; unencrypted Swift), that no-ssl uses the port of plain HTTP (Swift, B2 login), that unencrypted uploads are checked (Swift), that without no-ssl all is encrypted (an authentication server may name an http URL; documented)."
  },
  {
   "property": "C79",
   "status": "proved",
   "theorems": [
    "hdr_roundtrip",
    "hdr_request",
    "hdr_others",
    "hdr_ends",
    "hdr_checked",
    "hdr_special",
    "hdr_damaged",
    "hdr_format",
    "hdr_b2_new",
    "hdr_b2_old",
    "hdr_b2_prefers",
    "hdr_b2_checked",
    "hdr_b2_none",
    "hdr_b2_session"
   ],
   "note": "Any prefix, header size, metadata of C41 and other headers; tables of headers are maps from names in lower case, a response has each header once; the checksum is any function whose values have no spaces (base64). What the earlier Backblaze backend wrote is taken to be the same headers below the longer prefix, as b2ng.py says."
  },
  {
   "property": "C80",
   "status": "proved",
   "theorems": [
    "cmd_arrives",
    "cmd_rm",
    "cmd_rm_arrives",
    "cmd_root",
    "cmd_rm_file",
    "cmd_rm_dots",
    "cmd_lock",
    "cmd_cp",
    "cmd_cp_done",
    "cmd_cp_dots",
    "cmd_rm_link_refuted",
    "cmd_cp_link_refuted"
   ],
   "note": "Texts with python's repr and literal_eval; trees with symbolic links, for s3qlrm and s3qllock on one file system, where os.path.ismount is true for the root only; for s3qlcp on several. Refuted: that s3qlrm with a symbolic link removes the link or the directory it leads to; that s3qlcp with '..' behind a link in the target stays on one file system."
  }
 ]
}