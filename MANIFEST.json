{
 "claims": [
  {
   "property": "C01",
   "status": "proved",
   "theorems": [
    "C01_base64_roundtrip",
    "C01_base64_is_rfc4648",
    "C01_base64url_is_rfc4648",
    "C01_base64url_injective"
   ],
   "note": ""
  },
  {
   "property": "C02",
   "status": "partial",
   "theorems": [
    "C02_base64_accepts_exactly",
    "C02_base64_size_exact",
    "C02_decoder_injective_refuted"
   ],
   "note": "Acceptance and size are proved; acceptance does not make the decoder injective (unused padding bits are ignored), shown by the refuted theorem."
  },
  {
   "property": "C03",
   "status": "proved",
   "theorems": [
    "C03_hex_roundtrip",
    "C03_hex_decoder_exact",
    "C03_hex_sizes"
   ],
   "note": ""
  },
  {
   "property": "C04",
   "status": "partial",
   "theorems": [
    "C04_validate_memory_safe_refuted",
    "C04_validate_hex_memory_safe_refuted",
    "C04_validate_memory_safe_partial"
   ],
   "note": "Refuted for bytes >= 0x80 (signed char index); proved for ASCII input."
  },
  {
   "property": "C05",
   "status": "proved",
   "theorems": [
    "C05_varint_roundtrip"
   ],
   "note": ""
  },
  {
   "property": "C06",
   "status": "partial",
   "theorems": [
    "C06_varint_decoder_exact",
    "C06_varint_overflow_rejected_refuted",
    "C06_varint_overflow_rejected_partial",
    "C06_varint_unterminated_rejected"
   ],
   "note": "Refuted: the tenth byte may carry bits that are shifted out; proved for encodings of up to nine bytes or a tenth byte of at most one."
  },
  {
   "property": "C07",
   "status": "proved",
   "theorems": [
    "C07_zigzag64",
    "C07_zigzag32"
   ],
   "note": ""
  },
  {
   "property": "C08",
   "status": "proved",
   "theorems": [
    "C08_stringid_roundtrip",
    "C08_stringid_rejects_exactly",
    "C08_stringid_injective"
   ],
   "note": ""
  },
  {
   "property": "C09",
   "status": "proved",
   "theorems": [
    "C09_round_trip",
    "C09_null_id_refuted"
   ],
   "note": "C09_null_id_refuted shows that the stated proviso on omitted ids is needed."
  },
  {
   "property": "C10",
   "status": "proved",
   "theorems": [
    "C10_skip",
    "C10_skip_container_refuted",
    "C10_wrong_type",
    "C10_passed_id",
    "C10_absent_container_refuted",
    "C10_any_bytes"
   ],
   "note": "C10_skip_container_refuted shows that an unread container cannot be skipped (the proviso of the statement)."
  },
  {
   "property": "C11",
   "status": "proved",
   "theorems": [
    "C11_roundtrip",
    "C11_accepts",
    "C11_wide_parts_refuted"
   ],
   "note": "C11_wide_parts_refuted records that the two hex parts may exceed 32 bits and then wrap, so distinct texts give the same LSN."
  },
  {
   "property": "C12",
   "status": "proved",
   "theorems": [
    "C12_range_exact",
    "C12_segment",
    "C12_segment_unique"
   ],
   "note": ""
  },
  {
   "property": "C13",
   "status": "proved",
   "theorems": [
    "C13_next",
    "C13_next_wrap",
    "C13_range",
    "C13_timeline"
   ],
   "note": ""
  },
  {
   "property": "C14",
   "status": "proved",
   "theorems": [
    "C14_label_expressions",
    "C14_expire_keeps_chains",
    "C14_expire_backup_exact"
   ],
   "note": ""
  },
  {
   "property": "C15",
   "status": "proved",
   "theorems": [
    "C15_full_retention",
    "C15_command"
   ],
   "note": ""
  },
  {
   "property": "C16",
   "status": "proved",
   "theorems": [
    "C16_diff_retention",
    "C16_newest_remain"
   ],
   "note": ""
  },
  {
   "property": "C17",
   "status": "proved",
   "theorems": [
    "C17_time_retention",
    "C17_command"
   ],
   "note": ""
  },
  {
   "property": "C18",
   "status": "proved",
   "theorems": [
    "C18_adhoc",
    "C18_latest_link"
   ],
   "note": ""
  },
  {
   "property": "C19",
   "status": "proved",
   "theorems": [
    "C19_wal_exact",
    "C19_counted_labels",
    "C19_wal_names",
    "C19_selected_unique",
    "C19_selected_exists",
    "C19_backup_wal_kept",
    "C19_recent_wal_kept",
    "C19_unordered_starts_refuted",
    "C19_archive_dir",
    "C19_timeline_history",
    "C19_mismatch",
    "C19_only_wal"
   ],
   "note": "C19_unordered_starts_refuted shows that the stated proviso (later backups start at later WAL) is needed."
  },
  {
   "property": "C20",
   "status": "proved",
   "theorems": [
    "C20_interrupted_expire",
    "C20_completed_expire"
   ],
   "note": ""
  },
  {
   "property": "C21",
   "status": "proved",
   "theorems": [
    "C21_reconstruct",
    "C21_dropped"
   ],
   "note": ""
  },
  {
   "property": "C22",
   "status": "proved",
   "theorems": [
    "C22_directory_cleanup"
   ],
   "note": ""
  },
  {
   "property": "C23",
   "status": "partial",
   "theorems": [
    "C23_history_exact",
    "C23_same_repo",
    "C23_not_too_much",
    "C23_unset",
    "C23_inspected_repo_refuted",
    "C23_current_kept_refuted",
    "C23_year_names"
   ],
   "note": "C23_history_exact and C23_same_repo hold for the repository inspected; the code lists the history of the default repository but deletes from the repository acted on (C23_inspected_repo_refuted), and removes manifests of current backups of earlier years (C23_current_kept_refuted)."
  },
  {
   "property": "C24",
   "status": "partial",
   "theorems": [
    "C24_full",
    "C24_dependent_partial",
    "C24_full_error",
    "C24_dependent_error",
    "C24_old_year_refuted"
   ],
   "note": "Full backups: proved for the whole history. Differential and incremental backups: proved for the repository, and for the history when the set's year is the newest directory; otherwise refuted by C24_old_year_refuted (only the newest year of the history is read). Labels of a set are compared within the set, as the label starts with its full backup."
  },
  {
   "property": "C25",
   "status": "partial",
   "theorems": [
    "C25_round_trip",
    "C25_empty_map_refuted",
    "C25_version",
    "C25_backup_maps"
   ],
   "note": "The empty map is written but can not be read back (C25_empty_map_refuted). It is written when a file with a prior map that is not bundled is truncated to zero while being backed up; see DESIGN.md."
  },
  {
   "property": "C26",
   "status": "proved",
   "theorems": [
    "C26_block_restore"
   ],
   "note": ""
  },
  {
   "property": "C27",
   "status": "proved",
   "theorems": [
    "C27_block_incr",
    "C27_block_checksum",
    "C27_size"
   ],
   "note": ""
  },
  {
   "property": "C28",
   "status": "partial",
   "theorems": [
    "C28_history_exact",
    "C28_history_family",
    "C28_latest",
    "C28_accept_exact",
    "C28_current",
    "C28_default",
    "C28_refused",
    "C28_restore",
    "C28_stop_refuted"
   ],
   "note": "Acceptance is exact for the LSN given. restore passes the start LSN, so the claim about the stop point is refuted by C28_stop_refuted."
  },
  {
   "property": "C29",
   "status": "proved",
   "theorems": [
    "C29_different_never_ok",
    "C29_different_nothing_written",
    "C29_existing_unchanged",
    "C29_only_adds",
    "C29_same_ok",
    "C29_wrong_cluster"
   ],
   "note": ""
  },
  {
   "property": "C30",
   "status": "proved",
   "theorems": [
    "C30_ok",
    "C30_check",
    "C30_sync",
    "C30_async",
    "C30_first_repo_refuted"
   ],
   "note": "C30_first_repo_refuted records a refused push (never a false success): without pg-path, a broken first repository makes every other one mismatch."
  },
  {
   "property": "C31",
   "status": "partial",
   "theorems": [
    "C31_exact",
    "C31_sound",
    "C31_backup_file_refuted",
    "C31_batch",
    "C31_drop"
   ],
   "note": "Exact when no WAL file name is a prefix of another (C31_exact); sound for any names (C31_sound). C31_backup_file_refuted: with X and X.nnnnnnnn.backup (or X.partial) ready, X may be pushed again although it has an ok file."
  },
  {
   "property": "C32",
   "status": "partial",
   "theorems": [
    "C32_find_exact",
    "C32_find_sound",
    "C32_other_files",
    "C32_requests",
    "C32_archives",
    "C32_single",
    "C32_invalid_checkpoint",
    "C32_first_readable",
    "C32_prefix_refuted",
    "C32_length_refuted"
   ],
   "note": "Exact in terms of the characters that are compared (C32_find_exact): the code compares a substring at a fixed offset that covers only the first 22 - k characters of the checksum for archive ids of k characters. So different checksums with a common prefix are not detected (C32_prefix_refuted) and equal checksums under archive ids of different length are reported as duplicates (C32_length_refuted)."
  },
  {
   "property": "C33",
   "status": "partial",
   "theorems": [
    "C33_queue_exact",
    "C33_stale_ok_refuted"
   ],
   "note": "Fetch list and kept files are exact (C33_queue_exact). The ok file of a segment that is removed from the queue stays (C33_stale_ok_refuted), contrary to the comment in the code."
  },
  {
   "property": "C34",
   "status": "partial",
   "theorems": [
    "C34_flock_exclusive",
    "C34_quiet_partial",
    "C34_orderly_partial",
    "C34_available",
    "C34_taken",
    "C34_release",
    "C34_race_refuted",
    "C34_stale_refuted",
    "C34_outlives_refuted",
    "C34_read_remove_refuted"
   ],
   "note": "Proved for runs in which no lock file is removed while another process is between opening and locking it (C34_quiet_partial, deaths allowed), and for exec id sharing when further nobody dies with the lock and sharers release first (C34_orderly_partial). The full claim is refuted by C34_race_refuted, C34_stale_refuted, C34_outlives_refuted, C34_read_remove_refuted."
  },
  {
   "property": "C35",
   "status": "proved",
   "theorems": [
    "C35_trace_good",
    "C35_exactly_once",
    "C35_done",
    "C35_process_total",
    "C35_result_available",
    "C35_no_assert"
   ],
   "note": ""
  },
  {
   "property": "C36",
   "status": "proved",
   "theorems": [
    "C36_queues",
    "C36_always_answered",
    "C36_each_file_once",
    "C36_jobs",
    "C36_bundle_ids",
    "C36_order",
    "C36_sort_unique"
   ],
   "note": "qsort() is a sort by the same comparator; C36_sort_unique shows that the result does not depend on the algorithm. What a job does with its files is not part of the generator."
  },
  {
   "property": "C37",
   "status": "proved",
   "theorems": [
    "C37_queues",
    "C37_always_answered",
    "C37_each_file_once",
    "C37_jobs",
    "C37_bundle_once",
    "C37_sort_unique"
   ],
   "note": "As C36. Files without content may be handed out apart from their bundle, as they are stored nowhere."
  },
  {
   "property": "C38",
   "status": "proved",
   "theorems": [
    "C38_references_resolve",
    "C38_reference_list",
    "C38_unique",
    "C38_no_collision",
    "C38_collision_refuted"
   ],
   "note": "History of full (also resumed), diff/incr backups, expirations closed under 'based on', and changes of paths of no backup. Hypothesis noCollision is discharged by C38_no_collision except for files ending with .pgbi in uncompressed backups with block incremental, where the claim is false (C38_collision_refuted). What the filters make of a content is a parameter; the stored bytes of resumed files are known by size and checksum only."
  },
  {
   "property": "C39",
   "status": "proved",
   "theorems": [
    "C39_delta_enabled",
    "C39_not_read",
    "C39_delta_reads_all",
    "C39_incremental"
   ],
   "note": "Decision per file, conditions of delta, and the result of a whole incremental backup, for any contents seen by the jobs (files may change or vanish between reads)."
  },
  {
   "property": "C40",
   "status": "proved",
   "theorems": [
    "C40_save_steps_load",
    "C40_torn_write_loads",
    "C40_load_error"
   ],
   "note": "Each put is one step (write to a temporary file and rename); torn files are covered by C40_torn_write_loads."
  },
  {
   "property": "C41",
   "status": "proved",
   "theorems": [
    "C41_match",
    "C41_text",
    "C41_unique",
    "C41_version",
    "C41_version_text",
    "C41_history",
    "C41_save_load",
    "C41_built_save_load"
   ],
   "note": ""
  },
  {
   "property": "C42",
   "status": "proved",
   "theorems": [
    "C42_checksum",
    "C42_checksum_range",
    "C42_checksum_stored",
    "C42_moved",
    "C42_exact",
    "C42_ranges",
    "C42_split_refuted"
   ],
   "note": "For files read in buffers of whole pages (all but the last buffer), as with every page size but 32 KiB with buffer-size 16 KiB; that case is C42_split_refuted. The re-read of a page is an argument and assumed not to fail."
  },
  {
   "property": "C43",
   "status": "proved",
   "theorems": [
    "C43_success_needs_ok",
    "C43_error_seen",
    "C43_error_written",
    "C43_global_written",
    "C43_trim",
    "C43_ok_written",
    "C43_error_clear"
   ],
   "note": ""
  },
  {
   "property": "C44",
   "status": "proved",
   "theorems": [
    "C44_preserve",
    "C44_written",
    "C44_mismatch"
   ],
   "note": ""
  },
  {
   "property": "C45",
   "status": "partial",
   "theorems": [
    "C45_difference",
    "C45_unsorted",
    "C45_duplicate_refuted"
   ],
   "note": "Proved when the first list has no duplicates; refuted for sorted lists with duplicates."
  },
  {
   "property": "C46",
   "status": "proved",
   "theorems": [
    "C46_uint64_exact",
    "C46_uint_exact",
    "C46_int64_exact",
    "C46_int_exact",
    "C46_uint64_roundtrip",
    "C46_int64_roundtrip",
    "C46_mode_roundtrip"
   ],
   "note": ""
  },
  {
   "property": "C47",
   "status": "partial",
   "theorems": [
    "C47_calendar",
    "C47_calendar_unique",
    "C47_epoch",
    "C47_epoch_sound",
    "C47_epoch_invalid",
    "C47_year_2039_refuted",
    "C47_text",
    "C47_text_only",
    "C47_text_local",
    "C47_zone_sign_refuted",
    "C47_zone_minute_refuted"
   ],
   "note": "Proved for dates through 2037; from 2039 on the int arithmetic overflows (C47_year_2039_refuted). The sign of offsets below one hour is lost and offset minutes of 60 or more are accepted (refuted theorems)."
  },
  {
   "property": "C48",
   "status": "proved",
   "theorems": [
    "C48_from_spool",
    "C48_not_found_spool",
    "C48_sync",
    "C48_throw",
    "C48_found_first",
    "C48_missing_first",
    "C48_missing_later",
    "C48_async",
    "C48_check"
   ],
   "note": ""
  },
  {
   "property": "C49",
   "status": "partial",
   "theorems": [
    "C49_written_is_read_back",
    "C49_json_is_read",
    "C49_json_is_valid_partial",
    "C49_validation_ends",
    "C49_valid_texts_are_delimited",
    "C49_valid_unicode_refuted",
    "C49_only_json_is_valid_refuted",
    "C49_no_overread_refuted"
   ],
   "note": "Proved except: validation rejects \\u escapes (C49_valid_unicode_refuted), accepts a comma in place of an opening quote in production builds (C49_only_json_is_valid_refuted), and both readers run past the end of texts that end within an escape (C49_no_overread_refuted). Keys with escapes are rejected by design; integers up to 64 bits."
  },
  {
   "property": "C50",
   "status": "partial",
   "theorems": [
    "C50_fields_are_read_partial",
    "C50_fields_are_read_refuted",
    "C50_key_text",
    "C50_integers_fit"
   ],
   "note": "Proved when no key of the object is a proper prefix of a field looked for; otherwise C50_fields_are_read_refuted. Integer readers are exact."
  },
  {
   "property": "C51",
   "status": "partial",
   "theorems": [
    "C51_line_read_back",
    "C51_every_line_read_back_refuted",
    "C51_section_read_back",
    "C51_line_sound",
    "C51_lines",
    "C51_config_line"
   ],
   "note": "Proved except that a key with '=' and a number of 20 or more digits makes the line unreadable (C51_every_line_read_back_refuted); such a line is refused, never misread."
  },
  {
   "property": "C52",
   "status": "partial",
   "theorems": [
    "C52_save_load",
    "C52_accepted_is_checked",
    "C52_accepted_format",
    "C52_entries_unique",
    "C52_checksum_covers_everything",
    "C52_same_checksum_same_content",
    "C52_quoted_section_refuted"
   ],
   "note": "Save and load are inverse for ascending sections and lines shorter than the read buffer. The checksum text determines the entries unless a section name has a quote (C52_quoted_section_refuted); the program never writes such a section."
  },
  {
   "property": "C53",
   "status": "proved",
   "theorems": [
    "C53_files",
    "C53_left",
    "C53_complete",
    "C53_resumed",
    "C53_intact_kept",
    "C53_kept_only_intact",
    "C53_usable",
    "C53_missing_fails",
    "C53_bundle_refuted",
    "C53_block_refuted"
   ],
   "note": "The walk of the repository is modelled on a tree of any depth. The retry fails if bundling was enabled or block incremental was disabled after the interruption (C53_bundle_refuted, C53_block_refuted); the claim about what is kept holds in any case."
  },
  {
   "property": "C54",
   "status": "proved",
   "theorems": [
    "C54_unpack",
    "C54_lossless",
    "C54_list",
    "C54_base_time_refuted"
   ],
   "note": "The timestamp -1 is taken for an unset base time (C54_base_time_refuted); excluded in C54_list. The block of memory is modelled with StringPub objects as 16 cells."
  },
  {
   "property": "C55",
   "status": "proved",
   "theorems": [
    "C55_save_load",
    "C55_file_kept",
    "C55_own_label",
    "C55_time_before_1970_refuted",
    "C55_user_at_refuted"
   ],
   "note": "For names with '=' and 19 digits in a row the line may be refused (C51), lines must fit the buffer. Two values are excluded with witnesses: a file time before 1970 makes the saved manifest unloadable (C55_time_before_1970_refuted), a user or group named @ becomes the default (C55_user_at_refuted)."
  },
  {
   "property": "C56",
   "status": "proved",
   "theorems": [
    "C56_read_all",
    "C56_read_full",
    "C56_calls_all",
    "C56_line",
    "C56_no_failure",
    "C56_write_all",
    "C56_functions",
    "C56_written_then_read",
    "C56_buffer",
    "C56_small_short_refuted",
    "C56_last_line_again_refuted"
   ],
   "note": "Partial correctness: the loops take fuel, and a filter that never ends makes no progress. Two further expectations are refuted with witnesses: ioReadSmall() can return less than asked for with data left in the internal buffer when the flush of a filter takes two steps (C56_small_short_refuted), and a last line without linefeed is returned again by the next call (C56_last_line_again_refuted)."
  },
  {
   "property": "C57",
   "status": "proved",
   "theorems": [
    "C57_absolute",
    "C57_absolute_as_is",
    "C57_absolute_refused",
    "C57_target_path",
    "C57_exact",
    "C57_not_in_pgdata",
    "C57_disjoint",
    "C57_not_same",
    "C57_same_file_refuted",
    "C57_file_in_directory_refuted",
    "C57_contains_pgdata_refuted",
    "C57_not_normal_refuted"
   ],
   "note": "Exact characterisation; four overlaps that the description excludes but the check accepts are the refuted theorems."
  },
  {
   "property": "C58",
   "status": "proved",
   "theorems": [
    "C58_kept_files",
    "C58_dir_exact",
    "C58_dir_safe",
    "C58_nodelta_keeps",
    "C58_nodelta_error",
    "C58_owner_error",
    "C58_no_file",
    "C58_control",
    "C58_complete",
    "C58_files_left",
    "C58_outside",
    "C58_no_stale",
    "C58_control_link_refuted",
    "C58_link_owner_refuted",
    "C58_dangling_parent_refuted"
   ],
   "note": "Directories are cleaned exactly, safely under failures; whole run: no removal without delta, errors before changes, pg_control first, completeness, nothing outside, nothing stale. Three refuted expectations are findings in DESIGN.md."
  },
  {
   "property": "C59",
   "status": "proved",
   "theorems": [
    "C59_result",
    "C59_outcome",
    "C59_consistent",
    "C59_base",
    "C59_links_left",
    "C59_one_tablespace_refuted",
    "C59_file_name_refuted",
    "C59_path_and_file"
   ],
   "note": "The refuted theorems state two gaps: an entry of the tablespace map can move two tablespaces, and a file link may be mapped to a destination that ends with a slash."
  },
  {
   "property": "C60",
   "status": "proved",
   "theorems": [
    "C60_match_exact",
    "C60_prefix",
    "C60_prefix_no_bar",
    "C60_prefix_branches_refuted",
    "C60_prefix_optional_refuted",
    "C60_segment",
    "C60_segment_dir",
    "C60_is_segment",
    "C60_segment_file",
    "C60_hex_refuted",
    "C60_find",
    "C60_find_partial",
    "C60_label",
    "C60_history"
   ],
   "note": "regcomp() and regexec() are modelled for the constructs the code uses; what POSIX leaves undefined is outside of the model."
  },
  {
   "property": "C61",
   "status": "proved",
   "theorems": [
    "C61_ends",
    "C61_exact",
    "C61_members",
    "C61_once",
    "C61_unordered",
    "C61_ascending",
    "C61_descending",
    "C61_order_strict",
    "C61_missing",
    "C61_present",
    "C61_more_again",
    "C61_list",
    "C61_list_missing",
    "C61_prefix",
    "C61_prefix_recurse_refuted"
   ],
   "note": "The driver is a function of the path for the time of the iteration. The claim that a prefix loses nothing is for lists without recursion; C61_prefix_recurse_refuted shows repo-ls --recurse with an expression such as ^backup loses entries on object stores."
  },
  {
   "property": "C62",
   "status": "proved",
   "theorems": [
    "C62_accepts",
    "C62_zeroed",
    "C62_included_kept",
    "C62_system_kept",
    "C62_excluded_zeroed",
    "C62_other_zeroed",
    "C62_outside_kept",
    "C62_no_databases",
    "C62_unknown_excluded",
    "C62_first_include",
    "C62_version_kept",
    "C62_none",
    "C62_tablespace_exact",
    "C62_tablespace_dot_refuted",
    "C62_include_twice_refuted"
   ],
   "note": "Manifests are sound: database names are not ids that were found, no file is below a version file, tablespace targets are pg_tblspc/<id>. C62_tablespace_dot_refuted: before version 10 the dot of the tablespace directory stands for any character. C62_include_twice_refuted: a database included twice is refused as missing."
  },
  {
   "property": "C63",
   "status": "proved",
   "theorems": [
    "C63_selects",
    "C63_none",
    "C63_errors",
    "C63_not_passed",
    "C63_total",
    "C63_exclusive",
    "C63_time_best",
    "C63_lsn_reached",
    "C63_exists",
    "C63_only_repo",
    "C63_bad_target",
    "C63_prior_version_refuted",
    "C63_lsn_missing_refuted"
   ],
   "note": "C63_prior_version_refuted: a latest backup from before a stanza-upgrade in one repository is an error even if a later repository has a current backup. C63_lsn_missing_refuted: a backup without lsn hides older ones that fit (logged by the code)."
  },
  {
   "property": "C64",
   "status": "proved",
   "theorems": [
    "C64_database_path",
    "C64_temp_relation",
    "C64_exact",
    "C64_only_relations",
    "C64_init_kept",
    "C64_defined",
    "C64_clash_refuted",
    "C64_overflow_refuted"
   ],
   "note": "C64_clash_refuted: the cache of the last id ignores the path, so a logged relation with the same id as an unlogged one just before it in another database is dropped from the backup. C64_overflow_refuted: a file name of more than 20 digits is written past the end of the 21 character buffer."
  },
  {
   "property": "C65",
   "status": "proved",
   "theorems": [
    "C65_files",
    "C65_links",
    "C65_targets",
    "C65_paths",
    "C65_paths_all",
    "C65_link_check",
    "C65_refused",
    "C65_errors",
    "C65_sorted",
    "C65_depth",
    "C65_exclude",
    "C65_link_without_file_refuted",
    "C65_cache_name_refuted"
   ],
   "note": "Errors of the link check are stated to come from a link in reach (C65_errors) and success implies the check for all targets (C65_link_check). C65_sorted needs distinct names without a slash in each directory and that following a link gives no link. C65_link_without_file_refuted: a link to a special file or a file that is left out becomes a file link with no file. C65_cache_name_refuted: the expression for relation caches is not anchored."
  },
  {
   "property": "C66",
   "status": "proved",
   "theorems": [
    "C66_archive",
    "C66_bad_reported",
    "C66_no_lost_result",
    "C66_start",
    "C66_start_lists",
    "C66_abort_refuted"
   ],
   "note": "Names must be as they are in the repository: archive ids differ by their history id, a path is the first 16 characters of its segments, no slash in a name, and a WAL header never gives size 0. C66_abort_refuted: the command as a whole ends with an error if the header of the first WAL file is corrupt, or if a file name has 40 characters in the range 0-f that are not hex."
  },
  {
   "property": "C67",
   "status": "proved",
   "theorems": [
    "C67_errors",
    "C67_sound",
    "C67_alarm",
    "C67_status",
    "C67_own_failure",
    "C67_bad_is_bad",
    "C67_manifest",
    "C67_file",
    "C67_race_refuted",
    "C67_bundle_refuted"
   ],
   "note": "The stronger claim that a backup reported as valid has only valid files is false: C67_race_refuted (a backup counts as complete when all its jobs are given out) and C67_bundle_refuted (invalid bundled or block incremental files are listed under another name than the one looked up). In both cases the error count is not zero. The text of the report is not modelled."
  },
  {
   "property": "C68",
   "status": "partial",
   "theorems": [
    "C68_new",
    "C68_get",
    "C68_insert",
    "C68_remove",
    "C68_remove_value",
    "C68_find",
    "C68_sort",
    "C68_comparators",
    "C68_run",
    "C68_clear_partial",
    "C68_clear_refuted"
   ],
   "note": "lstClear() is shown only for a list whose first item was never removed: C68_clear_refuted shows that it frees a pointer that was not allocated otherwise. No caller does that today (filter/group.c:158 only adds)."
  },
  {
   "property": "C69",
   "status": "partial",
   "theorems": [
    "C69_tables",
    "C69_exact",
    "C69_exact_program",
    "C69_distinct",
    "C69_sound",
    "C69_sound_exact",
    "C69_key_refuted",
    "C69_command",
    "C69_command_sound",
    "C69_command_refuted"
   ],
   "note": "The key is the number in the name only up to nine digits: C69_key_refuted shows that pg4294967297-path is taken as pg1-path. Command names are matched by prefix with no check that one is meant: C69_command_refuted."
  },
  {
   "property": "C70",
   "status": "proved",
   "theorems": [
    "C70_line_sound",
    "C70_line_complete",
    "C70_line_options",
    "C70_precedence",
    "C70_file_complete",
    "C70_decided_one",
    "C70_not_from_config",
    "C70_env_refuted"
   ],
   "note": "Phases 1 to 3 of cfgParse(). What the files contain is an argument. C70_env_refuted: a variable with the prefix and no = is undefined behavior."
  },
  {
   "property": "C71",
   "status": "partial",
   "theorems": [
    "C71_valid",
    "C71_used",
    "C71_map",
    "C71_values",
    "C71_key_partial",
    "C71_key_refuted",
    "C71_default"
   ],
   "note": "Phases 4 and 6 of cfgParse() and the default index. C71_key_refuted: if one index is left that is not the first, the code gives it key 1, though it has values of its own."
  },
  {
   "property": "C72",
   "status": "partial",
   "theorems": [
    "C72_size",
    "C72_size_safe",
    "C72_time_partial",
    "C72_time_other_partial",
    "C72_time_sound",
    "C72_time_buffer_refuted",
    "C72_time_overflow_refuted"
   ],
   "note": "Sizes are proved in full. For times the code has undefined behavior if the number has more than 64 characters (C72_time_buffer_refuted) or is negative and the product is below -2^63 (C72_time_overflow_refuted)."
  },
  {
   "property": "C73",
   "status": "partial",
   "theorems": [
    "C73_rules",
    "C73_given",
    "C73_invalid",
    "C73_beta",
    "C73_absent",
    "C73_negated",
    "C73_unmet_partial",
    "C73_all",
    "C73_keep",
    "C73_safe_partial",
    "C73_tables_order",
    "C73_tables_rules",
    "C73_tables_dependency",
    "C73_tables_default",
    "C73_program_safe_partial",
    "C73_dependency_read_refuted",
    "C73_allow_mark_refuted"
   ],
   "note": "check --pg2-path without a stanza reads past the values of stanza (C73_dependency_read_refuted), so the theorems on unmet dependencies and safety exclude an option with indexes that depends on one without. A value not in a list of allowed values with one the program was built without is a FormatError (C73_allow_mark_refuted). Times that are undefined behavior in C72 are excluded."
  },
  {
   "property": "C74",
   "status": "proved",
   "theorems": [
    "C74_retries",
    "C74_short",
    "C74_within",
    "C74_ends",
    "C74_stays",
    "C74_bounded"
   ],
   "note": "The clock is an input."
  },
  {
   "property": "C75",
   "status": "partial",
   "theorems": [
    "C75_covered",
    "C75_exact",
    "C75_only_partial",
    "C75_duplicate",
    "C75_timeout",
    "C75_errors",
    "C75_ends",
    "C75_passes",
    "C75_copies",
    "C75_content",
    "C75_off",
    "C75_duplicate_refuted"
   ],
   "note": "The file found need not be the only one: in a check of several segments a file that is no segment (such as a temporary one) between two files of the segment hides the second (C75_duplicate_refuted). C75_only_partial has it for one segment or directories without such files."
  },
  {
   "property": "C76",
   "status": "partial",
   "theorems": [
    "C76_content",
    "C76_sound",
    "C76_exact",
    "C76_unique",
    "C76_cut",
    "C76_later",
    "C76_errors",
    "C76_dropped_refuted",
    "C76_cut_refuted"
   ],
   "note": "The line after the data of a chunk is not looked at, so a chunk longer than its header says loses the rest of it (C76_dropped_refuted). A cut of content that goes to the end of the connection cannot be seen (C76_cut_refuted)."
  },
  {
   "property": "C77",
   "status": "partial",
   "theorems": [
    "C77_status",
    "C77_new",
    "C77_ready",
    "C77_framed",
    "C77_errors",
    "C77_sizes_refuted",
    "C77_zero_refuted"
   ],
   "note": "Two different sizes are accepted and the last one counts (C77_sizes_refuted). A size of zero is ignored if the connection will be closed: anything up to the end is content (C77_zero_refuted). The rest is proved."
  },
  {
   "property": "C78",
   "status": "partial",
   "theorems": [
    "C78_roundtrip",
    "C78_encoded",
    "C78_safe",
    "C78_decode",
    "C78_decode_error",
    "C78_sign_refuted",
    "C78_query_roundtrip",
    "C78_query_order",
    "C78_query_none",
    "C78_parse",
    "C78_parse_errors",
    "C78_redact",
    "C78_redact_text",
    "C78_add",
    "C78_put",
    "C78_put_keys",
    "C78_get",
    "C78_merge",
    "C78_date",
    "C78_date_text",
    "C78_date_read",
    "C78_date_short_refuted",
    "C78_date_year_refuted",
    "C78_date_month"
   ],
   "note": "A sign is accepted in an escape (C78_sign_refuted). A date of fewer than 8 bytes from the server is read past its end (C78_date_short_refuted), and a year after 2037 overflows an int (C78_date_year_refuted). The rest is proved."
  },
  {
   "property": "C79",
   "status": "proved",
   "theorems": [
    "C79_settings",
    "C79_one",
    "C79_error"
   ],
   "note": "cfgExecParam() and the values of the options are arguments."
  },
  {
   "property": "C80",
   "status": "partial",
   "theorems": [
    "C80_preserve",
    "C80_before12",
    "C80_signal",
    "C80_lines",
    "C80_missing",
    "C80_none",
    "C80_targets",
    "C80_errors",
    "C80_standby_error",
    "C80_value",
    "C80_quote_refuted",
    "C80_old_refuted"
   ],
   "note": "Values are not quoted: one with a quote or a backslash is not read as it was given (C80_value, C80_quote_refuted). Old targets in upper case or without an equal sign are left (C80_old_refuted). The claim on target lines is for old files without carriage returns. The rest is proved."
  },
  {
   "property": "C81",
   "status": "partial",
   "theorems": [
    "C81_create_iff",
    "C81_create_new",
    "C81_create_valid",
    "C81_create_keep",
    "C81_create_copy",
    "C81_create_again",
    "C81_create_errors",
    "C81_create_ub",
    "C81_repair_cut",
    "C81_create_cut",
    "C81_create_cut_refuted",
    "C81_upgrade_iff",
    "C81_upgrade_ok",
    "C81_upgrade_valid",
    "C81_upgrade_writes",
    "C81_upgrade_cut",
    "C81_copy_refuted",
    "C81_create_repos",
    "C81_upgrade_repos",
    "C81_stopped"
   ],
   "note": "A create that is killed after archive.info but before backup.info is not completed by another create, which fails with a missing file (C81_create_cut, C81_create_cut_refuted). An upgrade that is killed between a file and its copy leaves the old copy for good (C81_copy_refuted). The rest is proved."
  },
  {
   "property": "C82",
   "status": "partial",
   "theorems": [
    "C82_test",
    "C82_stop_files",
    "C82_stop_self",
    "C82_stop_other",
    "C82_all_refuted",
    "C82_start",
    "C82_stop_start",
    "C82_signal",
    "C82_signal_all",
    "C82_signal_only",
    "C82_signal_refuted",
    "C82_again",
    "C82_no_force",
    "C82_lock_names"
   ],
   "note": "A stop of a stanza named all stops all stanzas (C82_all_refuted). Stop with force for stanza a signals processes of stanza a-b, and for stanza a-backup those of stanza a, and removes their lock files (C82_signal_refuted); C82_signal_only has the exact condition under which it does not. If the stop file exists force does nothing (C82_again). The rest is proved."
  },
  {
   "property": "C83",
   "status": "partial",
   "theorems": [
    "C83_allowed",
    "C83_errors",
    "C83_done",
    "C83_info_first",
    "C83_cut",
    "C83_again",
    "C83_stop_refuted"
   ],
   "note": "If the command is killed when just the stop file is left, the next delete does nothing and the stop file stays (C83_stop_refuted). The rest is proved."
  },
  {
   "property": "C84",
   "status": "partial",
   "theorems": [
    "C84_args",
    "C84_one",
    "C84_secure",
    "C84_shell",
    "C84_shell_refuted"
   ],
   "note": "A value goes through a shell unchanged just if it has no quotes, dollars, backticks and backslashes, and if it has no space also no other character that is special to the shell (C84_shell); others are not passed on as they are, and can add an option (C84_shell_refuted). The rest is proved."
  },
  {
   "property": "C85",
   "status": "partial",
   "theorems": [
    "C85_bytes",
    "C85_end",
    "C85_errors",
    "C85_versions_refuted",
    "C85_short_refuted"
   ],
   "note": "Proved when ranges of one file next to each other are of one version (C85_bytes, C85_end, C85_errors); the code joins ranges of different versions of a file (C85_versions_refuted). A range that goes past the end of the file gives the bytes that are there, without an error (C85_short_refuted)."
  },
  {
   "property": "C86",
   "status": "partial",
   "theorems": [
    "C86_bytes",
    "C86_buffer",
    "C86_tries",
    "C86_replaced_refuted"
   ],
   "note": "Proved for a file that is the same whenever it is opened again (C86_bytes, C86_buffer); if it is replaced between two tries and no version is given, old and new bytes are mixed (C86_replaced_refuted)."
  },
  {
   "property": "C87",
   "status": "partial",
   "theorems": [
    "C87_set",
    "C87_one",
    "C87_default",
    "C87_repos_refuted",
    "C87_lost_refuted"
   ],
   "note": "Proved for the annotations (C87_set) and for the command with one repository, or one asked for (C87_one). With several repositories it is false: all are loaded but each is saved to the first, so that the first gets the backup.info of another and the others are not annotated (C87_repos_refuted, C87_lost_refuted, C87_default)."
  },
  {
   "property": "C88",
   "status": "proved",
   "theorems": [
    "C88_right",
    "C88_fails"
   ],
   "note": "C88_right is an equivalence with a specification by position; C88_fails gives the failures under the ASSERT of the function. What connecting gives is a parameter."
  },
  {
   "property": "C89",
   "status": "partial",
   "theorems": [
    "C89_place",
    "C89_refused",
    "C89_slash",
    "C89_inside_partial",
    "C89_inside_refuted"
   ],
   "note": "Proved: place (C89_place), refusals (C89_refused), slash (C89_slash), staying inside without a name of two dots (C89_inside_partial). With two dots the path leads out of the repository, be it absolute or relative (C89_inside_refuted). Paths starting with < are expressions to storagePath and not modelled."
  }
 ]
}