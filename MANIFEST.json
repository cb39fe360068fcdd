{
 "claims": [
  {
   "property": "C01",
   "status": "proved",
   "theorems": [
    "C01_log_record_round_trip"
   ],
   "note": "all value variants; strings are byte lists, UTF-8 validation not modelled"
  },
  {
   "property": "C02",
   "status": "proved",
   "theorems": [
    "C02_reopen_replays_log"
   ],
   "note": "real crc32; loggable = representable Rust values"
  },
  {
   "property": "C03",
   "status": "partial",
   "theorems": [
    "C03_torn_tail_refuted",
    "C03_torn_header_never_opens_refuted",
    "C03_torn_tail_partial"
   ],
   "note": "refuted: a torn record makes the table unopenable; proved that recovery never invents records, given that the crc distinguishes the payload from its zero-padded cuts"
  },
  {
   "property": "C04",
   "status": "proved",
   "theorems": [
    "C04_memtable_is_row_list"
   ],
   "note": "rows as handed to the memtable; padding done by insert itself is C23"
  },
  {
   "property": "C05",
   "status": "partial",
   "theorems": [
    "C05_reopen_same_rows_partial",
    "C05_added_column_refuted"
   ],
   "note": "proved for every history in which unflushed rows are not older than the newest column; refuted otherwise: replay shifts values between rows and scans fail"
  },
  {
   "property": "C06",
   "status": "proved",
   "theorems": [
    "C06_flush_preserves_contents"
   ],
   "note": "append-only and replacing tables, every reachable state, every sort meeting the contract"
  },
  {
   "property": "C07",
   "status": "proved",
   "theorems": [
    "C07_acknowledged_inserts_survive",
    "C07_with_added_columns"
   ],
   "note": "histories of inserts, flushes (explicit and automatic), garbage collection and restarts; also with added columns if flushed before a restart"
  },
  {
   "property": "C08",
   "status": "partial",
   "theorems": [
    "C08_crash_before_metadata_partial",
    "C08_crash_after_metadata_refuted",
    "C08_crash_after_log_removal_refuted",
    "C08_orphan_part_loses_rows_refuted"
   ],
   "note": "proved safe for a crash before the metadata write provided gc runs before the next flush; refuted for the three later crash points and for a flush before gc"
  },
  {
   "property": "C09",
   "status": "partial",
   "theorems": [
    "C09_scan_without_flush_partial",
    "C09_scan_in_one_go",
    "C09_flush_during_scan_refuted"
   ],
   "note": "Threads are program counters over the lock-protected steps of insert, flush and scan; proved for every schedule in which no flush falls between the two steps of the scan in question. Refuted in general: from any reachable state with unflushed rows a flush between the steps hides exactly those rows from the scan. Append-only tables with fixed columns; compaction is not among the steps."
  },
  {
   "property": "C10",
   "status": "partial",
   "theorems": [
    "C10_crash_keeps_acknowledged_partial",
    "C10_flush_between_log_and_push_refuted",
    "C10_record_into_removed_log_refuted"
   ],
   "note": "Proved for crashes between steps of schedules that do not change the log between another thread's record and its push. Refuted: from any such state a flush by another thread makes the insert acknowledged and lost after a crash; likewise a record appended to a log file already removed."
  },
  {
   "property": "C11",
   "status": "proved",
   "theorems": [
    "C11_memory_lookup_last_write"
   ],
   "note": "for every key no longer than the row"
  },
  {
   "property": "C12",
   "status": "partial",
   "theorems": [
    "C12_unflushed_newest",
    "C12_lookup_partial",
    "C12_types",
    "C12_first_range_decides_partial",
    "C12_spanned_key_refuted",
    "C12_oldest_after_flush_refuted",
    "C12_smallest_prefix_refuted",
    "C12_other_key_types_refuted",
    "C12_row_group_box_refuted"
   ],
   "note": "Proved for every history of an append-only table with 64-bit integer keys: get finds a stored row of the key exactly when one exists, if at most one part's key range contains the key; an unflushed key is answered with its newest row, wherever else it is stored. Refuted: the first part whose range spans the key decides, even if it lacks the key (first_range_decides, spanned_key); after a flush the oldest row of a key is returned; a key prefix equal to the start of a part's smallest key is never found (replacing tables); keys that are not 64-bit integers panic; in a part with several row groups the first box that admits the key decides."
  },
  {
   "property": "C13",
   "status": "proved",
   "theorems": [
    "C13_written_rows_sorted_permutation"
   ],
   "note": "for every sort meeting the library contract"
  },
  {
   "property": "C14",
   "status": "partial",
   "theorems": [
    "C14_one_row_per_key_partial",
    "C14_newest_if_sort_stable_partial",
    "C14_newest_refuted",
    "C14_other_key_widths_refuted"
   ],
   "note": "one row per key proved for two 64-bit key columns; newest proved for a stable sort only; refuted for unstable sorts and for any other number of key columns"
  },
  {
   "property": "C15",
   "status": "proved",
   "theorems": [
    "C15_merge_returns_every_row_once_in_order",
    "C15_scan_after_history"
   ],
   "note": "all heaps and sorts meeting the library contracts, all chunkings; any sorted inputs, and end to end for every history of a table"
  },
  {
   "property": "C16",
   "status": "partial",
   "theorems": [
    "C16_returned_rows_are_stored_partial",
    "C16_distinct_keys_partial",
    "C16_superseded_row_returned_refuted"
   ],
   "note": "refuted: a superseded row is returned and another key is lost; proved that no row is invented or duplicated, and full correctness when no key occurs twice"
  },
  {
   "property": "C17",
   "status": "partial",
   "theorems": [
    "C17_passes_preserve_contents_partial",
    "C17_three_levels_partial",
    "C17_pass_changes_no_scan_partial",
    "C17_selection_repeats_iff",
    "C17_level0_selects_once",
    "C17_repeated_selection_refuted",
    "C17_merge_writes_each_mention_refuted",
    "C17_lone_part_moved_refuted",
    "C17_page_merge_preserves_contents_partial"
   ],
   "note": "Proved for every history of inserts, flushes, column additions, gc, restarts and passes (also with operations running beside a pass), any options with l0_max_parts > 0, provided no pass selects a part twice; unconditional for tables with at most three levels. C17_selection_repeats_iff says exactly when a part is selected twice. Refuted otherwise: rows are duplicated; with l0_max_parts = 0 a lone part is moved but stays listed and scans fail. The merge of files is an oracle with the contract merge_contract (CompactSpec.v)."
  },
  {
   "property": "C18",
   "status": "proved",
   "theorems": [
    "C18_paths_never_reused"
   ],
   "note": "For every history without crashes, also those with duplicated selections. A path referred to at any earlier moment is never written again."
  },
  {
   "property": "C19",
   "status": "proved",
   "theorems": [
    "C19_remove_iff_unheld",
    "C19_held_file_stays",
    "C19_scan_keeps_its_files"
   ],
   "note": "any interleaving of counter calls; renames (compaction of a single part) are not refused and are outside the property"
  },
  {
   "property": "C20",
   "status": "proved",
   "theorems": [
    "C20_restore_reproduces_database"
   ],
   "note": "bincode of the table list and zlib enter as a codec contract; target database has no leftover directories (else C70)"
  },
  {
   "property": "C21",
   "status": "partial",
   "theorems": [
    "C21_failed_restore_loses_all_tables_refuted",
    "C21_truncated_backup_is_rejected_partial",
    "C21_stream_without_footer_is_rejected_partial"
   ],
   "note": "refuted: every failed restore ends with no tables; proved: every truncation of a backup is rejected"
  },
  {
   "property": "C22",
   "status": "proved",
   "theorems": [
    "C22_metadata_round_trip",
    "C22_metadata_file_holds_last_write",
    "C22_large_version_refuted"
   ],
   "note": "whole encoding (prost varints, nested messages) modelled bit for bit; beyond the quantifier: versions of 2^32 and above are truncated (refuted theorem)"
  },
  {
   "property": "C23",
   "status": "partial",
   "theorems": [
    "C23_rejected_insert_has_no_effect",
    "C23_accepted_insert_adds_one_row_partial",
    "C23_misplaced_key_refuted"
   ],
   "note": "rejection proved in full; acceptance proved when key columns are listed first; refuted otherwise (keys are taken by position without checking names)"
  },
  {
   "property": "C24",
   "status": "partial",
   "theorems": [
    "C24_replace_checks_version_partial",
    "C24_retry_accepted_refuted",
    "C24_unread_accepted_refuted",
    "C24_changed_in_between_refuted",
    "C24_forgotten_refuted"
   ],
   "note": "Proved for every history: a replace with another version than the one read is refused without effect as long as fewer than ten further get_cas calls were made, none of the calls in between read or replaced the key and the table was not reopened; with the version that was read it behaves like an insert. Refuted: without a cached version any version is accepted; a refused call is accepted when repeated; ten reads of other rows make the store forget; a row changed by an insert in between is not noticed."
  },
  {
   "property": "C25",
   "status": "proved",
   "theorems": [
    "C25_sequence_consecutive",
    "C25_created_ids_increase"
   ],
   "note": "Every sequence counts up by one from its first number; ids given to created entities of one namespace strictly increase over every history of metadata calls."
  },
  {
   "property": "C26",
   "status": "partial",
   "theorems": [
    "C26_two_requests_refuted",
    "C26_same_number_refuted",
    "C26_later_request_refuted",
    "C26_undisturbed_partial",
    "C26_serial_partial"
   ],
   "note": "refuted for every pair of overlapping requests (exact characterisation); unique for executions in which no request commits while another is between its read and its commit"
  },
  {
   "property": "C27",
   "status": "proved",
   "theorems": [
    "C27_encoding_stable_bijection",
    "C27_create_key_refuted"
   ],
   "note": "bijection and stability for the encode/decode calls of the statement, over all other metadata operations interleaved; refuted separately: create_key, which writes a chosen number, can give two strings one number"
  },
  {
   "property": "C28",
   "status": "proved",
   "theorems": [
    "C28_dictionaries_independent",
    "C28_column_names_have_no_slash"
   ],
   "note": "Every call on another dictionary leaves this one alone; names of dictionary columns produced by the program have no slash, which the theorem needs."
  },
  {
   "property": "C29",
   "status": "partial",
   "theorems": [
    "C29_keys_distinct",
    "C29_calls_stay_in_their_family",
    "C29_listing_only_own",
    "C29_slash_refuted"
   ],
   "note": "Distinct entities have distinct keys and a listing of a family returns exactly its own records. Refuted for names containing a slash, which are written into keys unescaped."
  },
  {
   "property": "C30",
   "status": "proved",
   "theorems": [
    "C30_event_names_unique",
    "C30_free_name_can_be_taken",
    "C30_property_names_unique",
    "C30_property_name_taken"
   ],
   "note": "histories of all 39 metadata operations; events and properties of every kind"
  },
  {
   "property": "C31",
   "status": "partial",
   "theorems": [
    "C31_shown_by_name_partial",
    "C31_renamed_event_shows_old_name_refuted",
    "C31_recreated_event_refuted"
   ],
   "note": "refuted: renaming an event leaves the old name in the dictionary, and a recreated event gets the old id back; proved for histories without rename and delete"
  },
  {
   "property": "C32",
   "status": "partial",
   "theorems": [
    "C32_no_cycles",
    "C32_accepted_event_depth_partial",
    "C32_depth_without_updates_partial",
    "C32_depth_refuted"
   ],
   "note": "acyclicity proved in full; depth refuted for histories with updates (an update does not look at the events that use the updated one); depth proved for histories without updates and for each accepted event at its acceptance"
  },
  {
   "property": "C33",
   "status": "partial",
   "theorems": [
    "C33_identifier_kept_partial",
    "C33_merge_breaks_group_refuted",
    "C33_merge_shares_identifier_refuted"
   ],
   "note": "proved for histories that merge no visitor into a user in that group; refuted with merges: the group sequence is overwritten with text, so the next new value panics, and users merged with one visitor share an id"
  },
  {
   "property": "C34",
   "status": "proved",
   "theorems": [
    "C34_at_most_five_types",
    "C34_sixth_type_refused"
   ],
   "note": "also the exact id given to each new type"
  },
  {
   "property": "C35",
   "status": "partial",
   "theorems": [
    "C35_membership_agrees_partial",
    "C35_deleted_organization_refuted",
    "C35_deleted_account_refuted"
   ],
   "note": "refuted: deleting an organization or account leaves the other side; proved for histories without such deletions"
  },
  {
   "property": "C36",
   "status": "proved",
   "theorems": [
    "C36_emails_unique",
    "C36_used_email_refused"
   ],
   "note": "histories of all 39 metadata operations"
  },
  {
   "property": "C37",
   "status": "partial",
   "theorems": [
    "C37_accepted_strings_partial",
    "C37_name_accepted_as_token_refuted",
    "C37_token_lost_on_rename_refuted"
   ],
   "note": "refuted: project names are indexed beside tokens, so a name is accepted as token, and a rename drops the token; proved that only current tokens or names are accepted"
  },
  {
   "property": "C38",
   "status": "proved",
   "theorems": [
    "C38_session_open_exactly",
    "C38_expiry_exact"
   ],
   "note": "refinement of a per-user specification over all metadata operations; expiry test of the cleaner in milliseconds"
  },
  {
   "property": "C39",
   "status": "partial",
   "theorems": [
    "C39_listing_complete_partial",
    "C39_listed_once",
    "C39_teams_refuted",
    "C39_teams_listed_partial"
   ],
   "note": "Listings return each live record exactly once, except teams: their listing stops after the first match (refuted)."
  },
  {
   "property": "C40",
   "status": "partial",
   "theorems": [
    "C40_columns_distinct_partial",
    "C40_system_columns_refuted",
    "C40_type_change_refuted"
   ],
   "note": "non-system properties proved for histories without data type changes; refuted: system properties of one name, and changing a data type"
  },
  {
   "property": "C41",
   "status": "proved",
   "theorems": [
    "C41_denied_without_role",
    "C41_roles_nested",
    "C41_project_access_exact",
    "C41_calls_exact",
    "C41_project_calls_exact",
    "C41_readers_change_nothing"
   ],
   "note": "all calls of the platform API with the check each makes; exact table of the lowest role each call needs; readers change nothing"
  },
  {
   "property": "C42",
   "status": "partial",
   "theorems": [
    "C42_other_organization_refuted",
    "C42_access_needs_role_partial"
   ],
   "note": "refuted: an owner or administrator of any organization passes the check for every project; proved for all other callers"
  },
  {
   "property": "C43",
   "status": "proved",
   "theorems": [
    "C43_listing_exact"
   ],
   "note": "exact whenever the listing is allowed; it is refused to organization administrators, who may create and delete projects"
  },
  {
   "property": "C44",
   "status": "proved",
   "theorems": [
    "C44_trunc_is_interval_start",
    "C44_trunc_idempotent",
    "C44_same_bucket_iff_same_interval",
    "C44_trunc_monotone"
   ],
   "note": "independent Gregorian specification (leap years, month lengths, Mondays); all times before and after 1970"
  },
  {
   "property": "C45",
   "status": "proved",
   "theorems": [
    "C45_columns_cover_range"
   ],
   "note": "for the date rule of the chronoutil library as stated in DESIGN.md"
  },
  {
   "property": "C46",
   "status": "partial",
   "theorems": [
    "C46_regular_intervals_partial",
    "C46_months_refuted",
    "C46_next_month_refuted",
    "C46_next_year_refuted",
    "C46_without_bucket_lost_refuted"
   ],
   "note": "proved for hours, days and weeks; refuted for months and years: exact condition under which an interval has a bucket; what has none is lost"
  },
  {
   "property": "C47",
   "status": "proved",
   "theorems": [
    "C47_steps_never_increase"
   ],
   "note": "all funnel definitions, segments and batch sequences"
  },
  {
   "property": "C48",
   "status": "partial",
   "theorems": [
    "C48_batches_do_not_matter_partial",
    "C48_unique_refuted",
    "C48_constants_refuted",
    "C48_segments_refuted"
   ],
   "note": "proved without unique counting, holding constants and segments; refuted for each of the three: a stream delivered row by row is reported as if the option were off"
  },
  {
   "property": "C49",
   "status": "partial",
   "theorems": [
    "C49_report_is_specified_partial",
    "C49_other_users_refuted"
   ],
   "note": "exact report for ordered steps, breakdowns and unranged exclusions, when no user's events begin with an excluded one; refuted without that condition; Any steps, constants and unique counting are outside the positive theorem"
  },
  {
   "property": "C50",
   "status": "partial",
   "theorems": [
    "C50_conversions_at_most_users_partial",
    "C50_user_counted_again_refuted"
   ],
   "note": "refuted for every number of restarts; conversions are at most one per user when one batch holds all rows and does not end with a last-step event"
  },
  {
   "property": "C51",
   "status": "partial",
   "theorems": [
    "C51_ranged_exclusions_refuted",
    "C51_no_excluded_event_inside_partial"
   ],
   "note": "refuted: exclusions with a step range never have any effect; unranged exclusions proved"
  },
  {
   "property": "C52",
   "status": "proved",
   "theorems": [
    "C52_event_counts_exact"
   ],
   "note": "all row streams, groupings, filters and batch splits"
  },
  {
   "property": "C53",
   "status": "partial",
   "theorems": [
    "C53_unique_counts_exact",
    "C53_own_filter_refuted"
   ],
   "note": "proved for the filters reports use (applied before counting); refuted for the counter's own filter option, which skips a change of user"
  },
  {
   "property": "C54",
   "status": "proved",
   "theorems": [
    "C54_aggregates_exact"
   ],
   "note": "numbers are exact rationals instead of f64/i128; all functions, groupings and batch splits"
  },
  {
   "property": "C55",
   "status": "partial",
   "theorems": [
    "C55_counts_any_workers",
    "C55_aggregates_any_workers_partial",
    "C55_unique_any_workers",
    "C55_counts_per_user_any_workers_partial",
    "C55_property_per_user_any_workers_partial",
    "C55_average_workers_refuted",
    "C55_counts_and_sums_partial",
    "C55_minimum_beside_others_refuted",
    "C55_average_beside_others_refuted"
   ],
   "note": "counts, sums and unique counts combine over any workers; refuted for averages over workers and for minima and averages shown beside other metrics"
  },
  {
   "property": "C56",
   "status": "partial",
   "theorems": [
    "C56_did_event_exact_partial",
    "C56_users_with_event_partial",
    "C56_users_without_event_refuted",
    "C56_no_rows_refuted",
    "C56_missing_group_refuted"
   ],
   "note": "proved for comparisons zero does not satisfy; refuted for the others: users without a matching event are missing; a matching event without group stops the query"
  },
  {
   "property": "C57",
   "status": "partial",
   "theorems": [
    "C57_same_users_partial",
    "C57_different_users_refuted"
   ],
   "note": "proved for any tree of conditions about the same users; refuted otherwise: the arrays are combined by position"
  },
  {
   "property": "C58",
   "status": "partial",
   "theorems": [
    "C58_filters_partial",
    "C58_none_of_refuted",
    "C58_absent_refuted",
    "C58_pattern_and_value_refuted"
   ],
   "note": "proved for any list of well-typed filters with one value per negated filter on rows having the property, and no dictionary property filtered both by pattern and by value; refuted: several values under a negated operator, rows lacking the property, pattern and value on one property"
  },
  {
   "property": "C59",
   "status": "partial",
   "theorems": [
    "C59_custom_events_partial",
    "C59_large_id_refuted",
    "C59_pattern_filter_refuted"
   ],
   "note": "proved for all nested definitions with event numbers below 65536 whose member filters use no times and no patterns on dictionary properties; refuted outside"
  },
  {
   "property": "C60",
   "status": "partial",
   "theorems": [
    "C60_limit_partial",
    "C60_one_breakdown",
    "C60_quota_used_by_dropped_rows_refuted"
   ],
   "note": "Never more than the limit per value, order kept, and a row stays if fewer than the limit share each of its values before it; exact for one breakdown column. Refuted for two columns and every limit: rows dropped for one column use up the quota of their value in the column before it, so that a value without a single row in the result loses its rows."
  },
  {
   "property": "C61",
   "status": "partial",
   "theorems": [
    "C61_unpivot_partial",
    "C61_unpivot_order_refuted",
    "C61_pivot_places_values_partial",
    "C61_null_groups_collide",
    "C61_null_groups_merged_refuted",
    "C61_many_groups_refuted"
   ],
   "note": "Unpivot exact for metric columns listed in table order (refuted for another order: values come under the wrong name). Pivot exact for collision-free hashes and at most twice the buffer of groups; refuted beyond: two groups that differ only in which of two breakdowns is empty have the same hash for every hash function and are merged; a report with more than 2048 groups can fail."
  },
  {
   "property": "C62",
   "status": "partial",
   "theorems": [
    "C62_merge_partial",
    "C62_lacking_column_refuted"
   ],
   "note": "Exact if the label is not a column and every column that some event lacks may be null somewhere; refuted otherwise: the query fails as soon as an event without the column has a row."
  },
  {
   "property": "C63",
   "status": "partial",
   "theorems": [
    "C63_projection_partial",
    "C63_request_order_refuted",
    "C63_replacing_projection_drops_rows_refuted"
   ],
   "note": "memory side of a scan; proved for ascending requests that keep the key columns in front; refuted for other orders and for replacing tables without key columns"
  },
  {
   "property": "C64",
   "status": "partial",
   "theorems": [
    "C64_number_kept_iff_partial",
    "C64_whole_numbers_refuted"
   ],
   "note": "refuted: a number sent with scale s for a new property is stored as its mantissa, so it is shown as mantissa*10^-16; exact condition under which a number is kept"
  },
  {
   "property": "C65",
   "status": "partial",
   "theorems": [
    "C65_tracked_once_partial",
    "C65_session_time_refuted"
   ],
   "note": "one event row per accepted call with its time, event, user and project, counted once; refuted: the session-begin row gets the time divided by 1000"
  },
  {
   "property": "C66",
   "status": "partial",
   "theorems": [
    "C66_link_refuted",
    "C66_calls_with_both_ids_partial"
   ],
   "note": "refuted for every pair of ids: after the first linking call neither the user's nor the visitor's own calls go to the linked user; proved: all calls with both ids and the same visitor (or user) id agree"
  },
  {
   "property": "C67",
   "status": "partial",
   "theorems": [
    "C67_other_groups_refuted",
    "C67_user_strings_partial"
   ],
   "note": "proved for users and for properties without dictionary; refuted for every other group type: no call ever enters a string into the dictionary reports read"
  },
  {
   "property": "C68",
   "status": "partial",
   "theorems": [
    "C68_string_key_refuted",
    "C68_replacing_key_count_refuted",
    "C68_integer_keys_flush_partial"
   ],
   "note": "refuted for string keys and for replacing tables with other than two keys; proved for integer/timestamp keys"
  },
  {
   "property": "C69",
   "status": "partial",
   "theorems": [
    "C69_flushed_parts_are_deleted_partial",
    "C69_completed_scans_release_partial",
    "C69_compacted_parts_leak_refuted",
    "C69_abandoned_scan_leaks_refuted"
   ],
   "note": "refuted for parts written by compaction (opened twice, never closed) and after abandoned scans; proved for parts written by flush"
  },
  {
   "property": "C70",
   "status": "partial",
   "theorems": [
    "C70_restore_after_failure_refuted"
   ],
   "note": "refuted: directory 'levels' of the failed attempt makes every later restore fail"
  },
  {
   "property": "C71",
   "status": "partial",
   "theorems": [
    "C71_output_survives_gc_partial",
    "C71_after_restore_refuted"
   ],
   "note": "holds with one collector; refuted after a restore, which leaves a second collector with its own counters running"
  },
  {
   "property": "C72",
   "status": "partial",
   "theorems": [
    "C72_regular_end_is_complete_partial",
    "C72_unsupported_key_type_refuted"
   ],
   "note": "refuted for key types the merge does not implement; proved that a regular end means everything was returned. File read errors are not modelled"
  },
  {
   "property": "C73",
   "status": "partial",
   "theorems": [
    "C73_large_array_size_partial",
    "C73_replacing_scan_panics_refuted"
   ],
   "note": "refuted for replacing tables with small slices; proved for append-only tables (C15) and for slices at least as long as the table"
  },
  {
   "property": "C74",
   "status": "partial",
   "theorems": [
    "C74_projection_with_key_partial",
    "C74_fewer_columns_than_key_refuted"
   ],
   "note": "proved for projections that keep the key columns; refuted for projections with fewer columns than the key"
  },
  {
   "property": "C75",
   "status": "partial",
   "theorems": [
    "C75_date_never_accepted_refuted",
    "C75_strings_and_booleans_partial"
   ],
   "note": "strings and booleans proved; refuted for dates: no call with a date value is ever accepted"
  },
  {
   "property": "C76",
   "status": "partial",
   "theorems": [
    "C76_rejected_track_adds_no_row_partial",
    "C76_rejected_track_opens_session_refuted"
   ],
   "note": "no row is added; refuted for the rest: the session, event and properties of a rejected call stay"
  },
  {
   "property": "C77",
   "status": "proved",
   "theorems": [
    "C77_counts_per_user_exact"
   ],
   "note": "all functions, groupings and batch splits"
  },
  {
   "property": "C78",
   "status": "partial",
   "theorems": [
    "C78_property_per_user_partial",
    "C78_missing_property_refuted"
   ],
   "note": "proved when every matching event has the property; refuted otherwise: a missing value is read as zero"
  },
  {
   "property": "C79",
   "status": "partial",
   "theorems": [
    "C79_missing_group_refuted",
    "C79_groups_everywhere_partial"
   ],
   "note": "proved when every event has the group; refuted otherwise: a row without it stops the report"
  },
  {
   "property": "C80",
   "status": "partial",
   "theorems": [
    "C80_segments_refuted",
    "C80_last_segment_refuted"
   ],
   "note": "refuted: planning stops on every segment condition; an empty list and the last segment are mishandled by the physical planner"
  },
  {
   "property": "C81",
   "status": "partial",
   "theorems": [
    "C81_users_with_event_partial",
    "C81_first_user_refuted"
   ],
   "note": "proved for users with a matching event and for all but the first row's user; refuted for that user"
  },
  {
   "property": "C82",
   "status": "partial",
   "theorems": [
    "C82_unseen_value_refuted",
    "C82_seen_values_partial"
   ],
   "note": "refuted: any such filter refuses the whole report; proved that patterns and seen values are answered"
  },
  {
   "property": "C83",
   "status": "partial",
   "theorems": [
    "C83_text_order_refuted"
   ],
   "note": "refuted: the comparison is exactly that of first-seen order"
  },
  {
   "property": "C84",
   "status": "partial",
   "theorems": [
    "C84_user_values_partial",
    "C84_not_attached_refuted"
   ],
   "note": "proved for calls naming only the user and giving groups; refuted for calls without groups or also naming the visitor"
  },
  {
   "property": "C85",
   "status": "proved",
   "theorems": [
    "C85_versions_grow"
   ],
   "note": "proved for every history"
  },
  {
   "property": "C86",
   "status": "partial",
   "theorems": [
    "C86_columns_added_between_inserts_partial",
    "C86_column_added_during_insert_refuted"
   ],
   "note": "Proved when no insert is under way while a column is added. Refuted otherwise: the pushed row is too short and every later scan and flush fails, also after a restart."
  },
  {
   "property": "C87",
   "status": "partial",
   "theorems": [
    "C87_crash_before_publishing",
    "C87_crash_after_publishing_partial",
    "C87_crash_before_rename_refuted"
   ],
   "note": "Proved for crashes before the metadata is written, and after it for passes without moves. Refuted for a pending rename of a moved part: the reopened table cannot be scanned."
  },
  {
   "property": "C88",
   "status": "partial",
   "theorems": [
    "C88_three_levels_complete_partial",
    "C88_one_level_refuted",
    "C88_moved_part_merged_refuted"
   ],
   "note": "Proved for two and three levels if merging does not fail. Refuted for fewer than two levels and for passes that select a part they have just moved."
  },
  {
   "property": "C89",
   "status": "proved",
   "theorems": [
    "C89_sorted_by_average"
   ],
   "note": "Proved for tables with at least one value column and no column called Average; order is any function that sorts."
  },
  {
   "property": "C90",
   "status": "partial",
   "theorems": [
    "C90_compact_count_refuted",
    "C90_compact_decimal_partial",
    "C90_compact_long_period_refuted"
   ],
   "note": "Refuted: counts are integers, and the step that makes them decimals is skipped, so that every compact report over counts fails; with a breakdown only 50 points in time survive per value. Partial: decimal metrics without breakdown are answered completely."
  },
  {
   "property": "C91",
   "status": "partial",
   "theorems": [
    "C91_search_partial",
    "C91_filters_ignored_refuted",
    "C91_events_forgotten_refuted",
    "C91_event_id_needed_refuted",
    "C91_filter_column_refuted"
   ],
   "note": "Holds for requests with a property list that includes the event id, plain events each with a (possibly empty) filter list, filters on requested columns and of the kinds of C58, and no request-level filters (C91_search_partial). Refuted: filters of the request are never applied; an event given without a filter list is forgotten; leaving out the event id fails; an event filter on a property that is not requested is refused."
  },
  {
   "property": "C92",
   "status": "partial",
   "theorems": [
    "C92_group_search_partial",
    "C92_time_ignored_refuted"
   ],
   "note": "Holds when the request has a time range or filters but not both, for filters of the kinds of C58; rows come in scan order, the first 100 (C92_group_search_partial). Refuted: with filters the time range is ignored. Sorting is not modelled: the platform never asks for it."
  },
  {
   "property": "C93",
   "status": "partial",
   "theorems": [
    "C93_all_properties_partial",
    "C93_other_columns_refuted",
    "C93_labels_by_position_refuted"
   ],
   "note": "Holds for event searches when the project's properties are, in order, those of the table's columns (C93_all_properties_partial). Refuted: columns are labelled by position; with fewer properties than columns (another project created some) the search fails."
  },
  {
   "property": "C94",
   "status": "partial",
   "theorems": [
    "C94_lookup_partial",
    "C94_absent_value_refuted",
    "C94_missing_record_refuted"
   ],
   "note": "Holds for records that exist and have every property (C94_lookup_partial). Refuted: absent properties are returned as zero, empty or false; a missing record makes the request fail instead of an error."
  },
  {
   "property": "C95",
   "status": "partial",
   "theorems": [
    "C95_one_group_partial",
    "C95_only_first_group_refuted",
    "C95_meaning_lost_refuted"
   ],
   "note": "Holds for one group whose filters must all hold (C95_one_group_partial). Refuted: other groups and both connectives are ignored. An empty list of groups fails (C95_witness)."
  },
  {
   "property": "C96",
   "status": "partial",
   "theorems": [
    "C96_values_partial",
    "C96_dictionary_filter_refuted",
    "C96_custom_event_refuted"
   ],
   "note": "Holds without filter for every property and plain event; with a filter for properties that are not dictionary texts or times (C96_values_partial). Refuted: filters on dictionary texts compare the text with its number; custom events that filter by another property are refused."
  },
  {
   "property": "C97",
   "status": "partial",
   "theorems": [
    "C97_totals_partial",
    "C97_any_distribution_partial",
    "C97_same_worker_refuted"
   ],
   "note": "Counts and times only, for the requests C49 covers (exact step order, exclusions without step range, no holding constants, non-unique counting) and users whose events do not begin with an excluded one. The hash that assigns users to workers is not modelled: any assignment keeping a user on one worker is allowed. Refuted in full: an excluded event of another user on the same worker cancels an attempt that is counted when the two users are on different workers."
  },
  {
   "property": "C98",
   "status": "partial",
   "theorems": [
    "C98_one_worker_partial",
    "C98_several_workers_refuted"
   ],
   "note": "True for one worker, given floating point division is accurate to one part in 10^12. Refuted for several workers: the ratios of the workers are averaged without weights, so one converting user on one worker and any number of others on another give 50."
  },
  {
   "property": "C99",
   "status": "partial",
   "theorems": [
    "C99_average_time_refuted"
   ],
   "note": "Refuted for every report of one worker: the reported averages are a hundred times the average (the expression for percentages is used)."
  },
  {
   "property": "C100",
   "status": "partial",
   "theorems": [
    "C100_project_ignored_refuted",
    "C100_counted_refuted"
   ],
   "note": "Refuted: the plan has no condition on the project; the answer is the one the project would get if it owned every event of the database."
  },
  {
   "property": "C101",
   "status": "partial",
   "theorems": [
    "C101_window_partial",
    "C101_year_refuted",
    "C101_session_refuted"
   ],
   "note": "Hours, days and weeks are exact. A month is 31 days and a year 12 of these, 372 days, longer than any year. A session window passes validation and panics."
  },
  {
   "property": "C102",
   "status": "proved",
   "theorems": [
    "C102_append_merge",
    "C102_meets_the_contract",
    "C102_recorded_range",
    "C102_other_key_types_refuted"
   ],
   "note": "Append-only tables; heaps, the cut of merged arrays into pages and the file size are parameters with contracts, all discharged by concrete functions. C102_meets_the_contract discharges the assumption on the merge made by C17, C87 and C88, for all key types. C102_other_key_types_refuted: with key types outside the quantifier (text, boolean, 32-bit first column) the merge panics as soon as two chunks overlap. Page encoding and decompression are not modelled."
  },
  {
   "property": "C103",
   "status": "partial",
   "theorems": [
    "C103_other_records_dropped_refuted",
    "C103_values_shifted_refuted",
    "C103_unsorted_refuted"
   ],
   "note": "Refuted in three ways for two-column keys, the keys of the group tables: of two records of one project in two parts only the one with the larger identifier remains; rows after a dropped row get the dropped row's values; a third overlapping part is not merged, so the file is not sorted."
  },
  {
   "property": "C104",
   "status": "partial",
   "theorems": [
    "C104_settings_kept_partial",
    "C104_start_hour_refuted",
    "C104_starts_partial",
    "C104_admin_password_partial"
   ],
   "note": "Everything but the start hour of the backup schedule is read back; the start hour is always stored as 0 (refuted). Unacceptable settings are refused and change nothing. Starts keep the settings and make the keys of tokens only when they are empty; storing the first password changes nothing else."
  },
  {
   "property": "C105",
   "status": "partial",
   "theorems": [
    "C105_changes_applied_partial",
    "C105_schedule_ignored_refuted",
    "C105_refused_changes_nothing",
    "C105_schedule_fixed_refuted",
    "C105_shown",
    "C105_secrets_not_shown"
   ],
   "note": "Accepted requests apply the fields the code reads; schedule interval, start hour, Google Cloud key and default password are ignored, so no history of requests changes the schedule and Google Cloud can never be selected (refuted). Refused requests change nothing. Reading shows every setting that is no secret, and nothing that depends on a secret."
  },
  {
   "property": "C106",
   "status": "partial",
   "theorems": [
    "C106_completed_is_stored_partial",
    "C106_failed_dump_completed_refuted",
    "C106_s3_stores_nothing_refuted",
    "C106_no_leftovers",
    "C106_s3_leaves_file_refuted",
    "C106_same_hour_overwritten_refuted"
   ],
   "note": "Proved for local and Google Cloud backups if no dump failed and no two backups were created in the same hour, over all histories with crashes; shipped backups leave no temporary file. Refuted: a failed dump is shown as completed, S3 stores nothing and leaves its temporary file, a later backup of the same hour replaces the archive of an earlier one."
  },
  {
   "property": "C107",
   "status": "partial",
   "theorems": [
    "C107_scheduled_once_partial",
    "C107_hour_stops_scheduler_refuted",
    "C107_repeated_refuted",
    "C107_s3_stops_scheduler_refuted"
   ],
   "note": "Proved up to nine recorded backups, against a schedule given by the calendar. Refuted from ten to eighty-nine: the list is in byte order of the numbers, its last entry is number 9, and every round of a scheduled minute starts another backup. With S3, or a start hour above 23, the scheduler task panics."
  },
  {
   "property": "C108",
   "status": "partial",
   "theorems": [
    "C108_restart_ends_running",
    "C108_waiting_is_run",
    "C108_asked",
    "C108_finished_stays",
    "C108_uploading_forever_refuted"
   ],
   "note": "A request records one waiting backup with the destination of the settings, or changes nothing; one waiting at most, waiting ones finished by the next round, running ones failed at restart, finished records never change. Refuted: a backup that was uploading when the server stopped stays uploading for ever."
  },
  {
   "property": "C109",
   "status": "proved",
   "theorems": [
    "C109_tokens_need_a_password",
    "C109_accepted_requests"
   ],
   "note": "Symbolic cryptography: a hash accepts exactly its password, a client presents only tokens handed out before. For all histories, all email and strength checks, all lifetimes."
  },
  {
   "property": "C110",
   "status": "partial",
   "theorems": [
    "C110_deleted_accounts_stay_out",
    "C110_removed_members_lose_the_organization",
    "C110_role_change_refuted",
    "C110_administrators"
   ],
   "note": "Proved for deletion (in every later history), removal from an organization (at once) and for who can make administrators. Refuted for roles: accounts.update accepts a role, reports success and never stores it, so in no history does an account's role change."
  },
  {
   "property": "C111",
   "status": "partial",
   "theorems": [
    "C111_renewal_partial",
    "C111_renewal_refuted",
    "C111_organization_refuted"
   ],
   "note": "Proved while the access token is still good. Refuted: the handler needs a valid access token, so a refresh token is useless once the access token has expired; and the new token takes its organization from the access token and its account from the refresh token, whoever they belong to."
  },
  {
   "property": "C112",
   "status": "partial",
   "theorems": [
    "C112_changed_password",
    "C112_who_changes_passwords",
    "C112_sessions_refuted",
    "C112_order_refuted"
   ],
   "note": "Proved: the old password is refused, the new one accepted, and who may change passwords. Refuted: tokens handed out before go on working; force_update_password in an account update is accepted and ignored in every history."
  },
  {
   "property": "C113",
   "status": "partial",
   "theorems": [
    "C113_wrong_password",
    "C113_right_password_partial",
    "C113_organization",
    "C113_remembered_organization_refuted",
    "C113_unusable_account_refuted",
    "C113_addresses_are_unique",
    "C113_repetition_refuted"
   ],
   "note": "Proved: wrong passwords are refused, addresses are unique, right passwords are accepted when the address is valid and the remembered organization, if any, exists; the organization of a log-in is one the account is a member of, or none. Refuted: a remembered organization that was deleted refuses every log-in; accounts created with an address the validator does not take cannot be opened; the repeated password is not compared."
  },
  {
   "property": "C114",
   "status": "partial",
   "theorems": [
    "C114_restart_partial",
    "C114_restart_refuted",
    "C114_first_restart_refuted"
   ],
   "note": "Proved for every history that does not delete account 1. Refuted for every history that does: the start creates an account under another number, so the second start (the first one if an organization still has its first name) and all later ones fail."
  },
  {
   "property": "C115",
   "status": "partial",
   "theorems": [
    "C115_event_properties_refuted",
    "C115_accounts_partial",
    "C115_organizations_partial",
    "C115_teams_partial",
    "C115_projects_partial",
    "C115_sessions_partial",
    "C115_dashboards_partial",
    "C115_events_partial",
    "C115_properties_partial",
    "C115_group_values_partial",
    "C115_groups",
    "C115_backups_partial",
    "C115_times_refuted"
   ],
   "note": "Proved for every record type: what is read back, that storing it again changes nothing more, and exactly which records come back unchanged. Not kept: fractions of a second of all times, the difference between an empty and an absent list, panel places above 2^32, the property lists of events (attaching properties succeeds without effect); list-typed properties and absent or list values of groups make the writer panic. UTF-8 checks of the decoder are not modelled."
  },
  {
   "property": "C116",
   "status": "proved",
   "theorems": [
    "C116_reports",
    "C116_bookmarks",
    "C116_report_kept",
    "C116_report_changed",
    "C116_bookmark_kept",
    "C116_report_fields",
    "C116_bookmark_fields"
   ],
   "note": "The query itself is kept exactly, with times written as the RFC 3339 text of TimeText (C137): for one record (C116_reports, C116_bookmarks) and over every history of calls - a report that is made is opened with its query, whatever calls lie between, unless one asked for another query of it or for its end (C116_report_kept); after a change it has the query asked for (C116_report_changed); a bookmark keeps its query (C116_bookmark_kept). C116_report_fields and C116_bookmark_fields say what happens to the other fields, for any texts of times that read back: times of the record lose their fraction and an empty tag list becomes absent (C115). Writing fails only for records of 2^63 bytes and more."
  },
  {
   "property": "C117",
   "status": "partial",
   "theorems": [
    "C117_custom_events_partial",
    "C117_can_be_written",
    "C117_numbers_refuted",
    "C117_absent_values_refuted"
   ],
   "note": "What is kept of a custom event is proved for every custom event; numbers are kept only if they are zero or have 16 decimal places (the scale is not stored), an absent value makes the event unreadable, filters without values come back with an empty list."
  },
  {
   "property": "C118",
   "status": "partial",
   "theorems": [
    "C118_dashboard_create_partial",
    "C118_report_create_partial",
    "C118_dashboard_numbers",
    "C118_report_numbers",
    "C118_dashboard_update_partial",
    "C118_report_update_partial",
    "C118_report_type_refuted",
    "C118_dashboard_delete",
    "C118_report_delete",
    "C118_deleted_stays_gone",
    "C118_deleted_report_stays_gone",
    "C118_dashboard_list",
    "C118_report_list",
    "C118_kinds_apart",
    "C118_dangling_panels_refuted",
    "C118_list_order_refuted"
   ],
   "note": "Over every history of calls: fresh rising numbers, what is read after creation, change and deletion, exact lists, independence of kinds and projects. Read back up to C115/C116 (seconds, empty tags, 32-bit places) or a record too big for memory. Refuted: order of the list, the type in a change of a report, panels of deleted reports. One call at a time (concurrent: C63)."
  },
  {
   "property": "C119",
   "status": "partial",
   "theorems": [
    "C119_bookmark_create_partial",
    "C119_bookmark_kept",
    "C119_bookmark_private",
    "C119_same_text_refuted"
   ],
   "note": "Made, kept and private over every history, up to the time cut to the second and records too big for memory. Refuted: a text drawn twice by an account replaces its earlier bookmark."
  },
  {
   "property": "C120",
   "status": "partial",
   "theorems": [
    "C120_owners_partial",
    "C120_organization_refuted",
    "C120_project_refuted"
   ],
   "note": "Holds for owners and server administrators. Refuted for every other role: administrators and members of an organization cannot read it, switch to it or list its projects; administrators, members and readers of a project cannot read its record."
  },
  {
   "property": "C121",
   "status": "partial",
   "theorems": [
    "C121_given_back_partial",
    "C121_unchanged_partial",
    "C121_exclusion_drift_refuted",
    "C121_exclusion_zero_refuted",
    "C121_groups_refuted",
    "C121_number_refuted"
   ],
   "note": "Proved through the bytes of the store and any history before: the report comes back in the form `kept` (empty lists gone, first group of filters only with its conditions dropped, exclusion steps one lower); requests without these parts come back unchanged. Refuted in general: exclusion steps sink by one at every save (drift theorem for n saves), conditions and later groups are lost, numbers beyond 64 bits become other numbers."
  },
  {
   "property": "C122",
   "status": "partial",
   "theorems": [
    "C122_conversion_exact",
    "C122_accepted_empty_groups_refuted",
    "C122_accepted_null_refuted",
    "C122_check_group_exact"
   ],
   "note": "Exact characterization of the requests on which the conversion panics and of the filters on which the checks panic. Refuted: every accepted request stays accepted and panics when given an empty list of groups, or a null compared with a nullable property."
  },
  {
   "property": "C123",
   "status": "partial",
   "theorems": [
    "C123_segmentation_asked_partial",
    "C123_funnel_asked_partial",
    "C123_groups_refuted"
   ],
   "note": "Proved for the parts a query has: events, filters, values, aggregates, breakdowns, time, steps, exclusions counted from one; of the groups of filters the first only. Refuted: later groups and the conditions between filters never reach the query. Segments are not compared (they cannot run)."
  },
  {
   "property": "C124",
   "status": "partial",
   "theorems": [
    "C124_filter_exact",
    "C124_segmentation_exact",
    "C124_funnel_exact",
    "C124_int32_order_refuted",
    "C124_truth_refuted",
    "C124_exclusion_range_refuted"
   ],
   "note": "The acceptance of a filter, of a whole segmentation request and of a whole funnel request is characterized exactly against a specification of what fits. Refuted where the English claim asks more: ordered operations on 32 bit whole numbers are refused, `is true` without a value list is refused on a property that is never null, an exclusion reaching the last step is refused."
  },
  {
   "property": "C125",
   "status": "partial",
   "theorems": [
    "C125_crash_only_partial",
    "C125_same_until_crash_partial",
    "C125_easy_calls_never_crash_partial",
    "C125_one_crash_stops_the_rest_refuted"
   ],
   "note": "Refuted: both executors sit behind a std Mutex that is never un-poisoned, so the first call that panics makes every later call of the same kind panic until the server restarts (C125_one_crash_stops_the_rest_refuted, for every history). Proved: exactly what can panic, that without a panic every call is answered as if it were alone, and that calls with one id and small numbers never panic. Known crash causes: linked projects, both ids in one call, a number that does not fit an integer property."
  },
  {
   "property": "C126",
   "status": "partial",
   "theorems": [
    "C126_link_closes_project_refuted"
   ],
   "note": "Refuted: one accepted call with both a user id and an anonymous id overwrites the project's user counter with a record, after which every call for a user or visitor not seen before fails (and panics when it carries no properties), for every later history including restarts. Proved part: C127 covers projects in which no ids were linked."
  },
  {
   "property": "C127",
   "status": "partial",
   "theorems": [
    "C127_identify_accepted_partial",
    "C127_groups_accepted_partial",
    "C127_valid_call_accepted_partial"
   ],
   "note": "Proved for track calls with groups of kinds that are known or that the project has room for (five names cover the kinds there are and those of the call), for calls without groups, and for identify calls, in projects where ids were never linked and (for calls with groups and identify calls) no date was given to a record and properties were not changed or deleted; elsewhere it is false (C126, C130). Contract on the string oracle: only text properties are dictionaries (executor.rs 53-57)."
  },
  {
   "property": "C128",
   "status": "partial",
   "theorems": [
    "C128_answer_shows_partial",
    "C128_formats_agree",
    "C128_crash_exact",
    "C128_order_kept",
    "C128_missing_number_refuted"
   ],
   "note": "Every cell proved, with rounding to the nearest thousandth (half to even), order kept, formats equal and crashes characterized exactly. Refuted: a missing number is answered as 0, and figures of 2^96 units of 10^-16 (about 7.9 million millions) or more panic. The last step from decimal to the nearest double is not modelled; floating point columns do not occur."
  },
  {
   "property": "C129",
   "status": "partial",
   "theorems": [
    "C129_group_names_partial",
    "C129_group_names_refuted",
    "C129_figures",
    "C129_crash_exact"
   ],
   "note": "Every figure proved for any number of steps and rows, crash conditions exact (a step that begins with a custom event, too large figures). Refuted: a missing number is named 0, a missing text is named like the empty one, close decimals share a name."
  },
  {
   "property": "C130",
   "status": "partial",
   "theorems": [
    "C130_no_dates_partial",
    "C130_refused_date_spoils_record_refuted"
   ],
   "note": "Refuted: a date given to a timestamp property of a record is refused but kept, and from then on every identify call for the record and every track call naming it (with groups) is refused, whatever comes in between. Every new project has such a property in every kind of groups (created_at). Proved: as long as no identify call carries a date, no ids are linked and nobody else writes the records or changes the properties, every stored value fits its property after every history of calls, accepted or refused."
  },
  {
   "property": "C131",
   "status": "proved",
   "theorems": [
    "C131_new_project_ready",
    "C131_calls_accepted",
    "C131_rename_shows"
   ],
   "note": "Creation as a whole, calls after every orderly later history (with groups of known kinds or of kinds there is room for), and renames. The answers of the user-agent and geo libraries are arbitrary. The earlier metadata calls must not have spoken of the number the project gets (ids are handed out in sequence), and name and token differ."
  },
  {
   "property": "C132",
   "status": "partial",
   "theorems": [
    "C132_moment_exact",
    "C132_moment_partial",
    "C132_moment_release_refuted",
    "C132_event_search_accepted_exact",
    "C132_group_search_accepted_exact",
    "C132_values_accepted_exact",
    "C132_event_search_stops_exact",
    "C132_group_search_stops_exact",
    "C132_values_stops_exact",
    "C132_empty_groups_refuted",
    "C132_sixth_group_refuted",
    "C132_far_moment_refuted",
    "C132_event_search_asked_partial",
    "C132_group_search_asked_partial",
    "C132_values_asked",
    "C132_sort_dropped_refuted",
    "C132_later_groups_dropped_refuted"
   ],
   "note": "Proved exactly which requests of the three kinds the checks accept, and (with overflow checks, naming no property of a group beyond the fifth) exactly which stop the worker: those in order that compare with null or a number of 2^96 or more, give an empty list of groups of filters, or give a moment chrono does not know. So the full claim is refuted for every search in order once such a part is put into it. A search that runs has the events, filters of the first group, properties and time of the request, at the given moment (any moment chrono knows; in a release build each is also what a number 2^61 higher stands for). Refuted: the sorting of a group search and all groups of filters but the first make no difference. The clock is a parameter; what the query answers is C91 to C95."
  },
  {
   "property": "C133",
   "status": "partial",
   "theorems": [
    "C133_table_partial",
    "C133_collision_refuted",
    "C133_lost_column_refuted",
    "C133_titles_distinct_partial",
    "C133_numbered_name_refuted",
    "C133_formula",
    "C133_given_name_refuted",
    "C133_same_formula_refuted"
   ],
   "note": "Proved: when the titles do not collide, the table has exactly the columns asked for in order, all rows of all events in order, every cell under its title and null where an event lacks the column (C133_table_partial); properties of one name get different titles as long as no name is another one followed by a space and a number (C133_titles_distinct_partial); the rows of every metric are called by the name of the metric (C133_formula). Missing because false, each refuted in general: the whole report is refused when a display name is that of another column - Event, Segment, Formula, Average or a time - or when two properties share a name and a third has it with ' 2' (C133_collision_refuted, C133_numbered_name_refuted), or when it is broken down by the time of the event or by the event itself (C133_lost_column_refuted); a name the user gives to a metric is never shown, and different metrics can bear one name (C133_given_name_refuted, C133_same_formula_refuted)."
  },
  {
   "property": "C134",
   "status": "partial",
   "theorems": [
    "C134_refusals",
    "C134_refused_changes_nothing",
    "C134_carried_out",
    "C134_statuses",
    "C134_log_in_tells_nothing",
    "C134_cookie",
    "C134_tokens_belong_together",
    "C134_same_server",
    "C134_deleted_account_refuted",
    "C134_remembered_organization_refuted",
    "C134_taken_address_refuted",
    "C134_cookie_first_refuted"
   ],
   "note": "Proved for every request at every moment of every history: status and fields are those of the reason for the refusal, and no reason means the request is carried out (C134_refusals, an equivalence with the list of reasons in AuthStatusSpec); refusals change nothing (C134_refused_changes_nothing); 200, or 201 for a new account, and never a server error (C134_carried_out, C134_statuses); failed log-ins tell nothing (C134_log_in_tells_nothing); the cookie and the pairs of tokens (C134_cookie, C134_tokens_belong_together); the calls are those of C109-C113 (C134_same_server). Missing because false: a token whose account was deleted is 404 and not 401 (C134_deleted_account_refuted); the right password is 404 in a browser that remembers a deleted organization (C134_remembered_organization_refuted); a taken address is 409 in four calls and 400 in the fifth (C134_taken_address_refuted); a stale cookie hides a good refresh token in the body (C134_cookie_first_refuted). Cryptography is symbolic; disk failures, message texts and the listing of accounts are not modelled."
  },
  {
   "property": "C135",
   "status": "partial",
   "theorems": [
    "C135_property_partial",
    "C135_per_user_partial",
    "C135_counted_partial",
    "C135_answered",
    "C135_counts_of_texts_refuted",
    "C135_texts_are_summed_refuted",
    "C135_big_sums_refuted"
   ],
   "note": "Proved for every number type, every (pair of) function(s), every values and any number of workers: the shown number is the aggregate of what the stored values stand for (C135_property_partial, C135_per_user_partial, C135_counted_partial), and exactly number columns are answered (C135_answered). Conditions: sums stay within 64 bits (small integers) or the largest decimal, counts within 64 bits, averages come from one worker (C55 says what several workers do), a user's rows lie together on one worker. Floats are rationals: their rounding is not modelled. Beyond: sums of 64-bit integers wrap to negative numbers without an error (C135_big_sums_refuted); text properties with a dictionary are aggregated by their dictionary numbers (C135_texts_are_summed_refuted); the number of values of a text, boolean or time property is refused, the sum of texts and all per-user reports of them stop the worker (C135_counts_of_texts_refuted)."
  },
  {
   "property": "C136",
   "status": "partial",
   "theorems": [
    "C136_success",
    "C136_bad_request",
    "C136_statuses",
    "C136_nothing_changes",
    "C136_refused_creates_properties_refuted",
    "C136_date_refuted",
    "C136_kinds_refuted"
   ],
   "note": "For every history and request: 201 and 204 are answered exactly when the call is carried out (C136_success); 400 exactly for a body that cannot be read and for a track call that names nobody, has a known token and finds the lock free (C136_bad_request); only 201/204, 400, 404, 500 or no answer occur (C136_statuses); a malformed body, an unknown token and a call after one that broke off change nothing (C136_nothing_changes). Refuted: a refused call leaves its new properties (C136_refused_creates_properties_refuted); a date is refused for every property but never with 400 (C136_date_refuted); a kind of groups too many is a server error (C136_kinds_refuted). Not characterized: which of 404 and 500 a call with a known token gets; the witness shows both."
  },
  {
   "property": "C137",
   "status": "proved",
   "theorems": [
    "C137_read",
    "C137_written",
    "C137_round_trip"
   ],
   "note": "For every moment of the years chrono holds: the text written names it (C137_written) and reads back (C137_round_trip); a text is read exactly if it names a moment of the calendar of CalendarSpec, and as that moment (C137_read). chrono is not part of the repository and is modelled from its documentation; its leniency (a space or small letter for T, second 60, more digits) is left out, so 'only if' of C137_read holds for texts without these."
  },
  {
   "property": "C138",
   "status": "proved",
   "theorems": [
    "C138_refusals",
    "C138_answers",
    "C138_stops",
    "C138_refused_changes_nothing",
    "C138_hidden",
    "C138_only_members_change",
    "C138_only_makers_change",
    "C138_maker_kept",
    "C138_report_maker_kept"
   ],
   "note": "Over every history of account calls and requests of one server, from its first start: the refusals with their statuses, the answers (made records are the caller's and new, listings are complete, changes leave the rest), refused requests change nothing and tell nothing, who may change what, and who made a record. Bounds: numbers fit 64 bits, times are chrono's, fewer than 2^64 - 1 events. Records of 2^63 bytes stop the server (C138_stops). Left out: addresses with numbers that are none, the conversion of queries (C121). That owners of any organization count as owners of every project is the finding of C42."
  },
  {
   "property": "C139",
   "status": "partial",
   "theorems": [
    "C139_change_noticed_partial",
    "C139_shown_was_checked",
    "C139_length_changed_partial",
    "C139_lost_insert_refuted"
   ],
   "note": "Proved: every change of up to four neighbouring bytes in the checksum or the payload of any record keeps the table from opening (CRC-32 as crc32fast computes it is proved to tell such payloads apart); whatever is shown stands in the file under its own length and checksum; a changed length is noticed unless the bytes then read have the same checksum. Refuted in full: the length is not under the checksum, and a log of two inserts is given in which changing one byte of a length loses the second insert without an error."
  },
  {
   "property": "C140",
   "status": "partial",
   "theorems": [
    "C140_refusals_partial",
    "C140_answers",
    "C140_only_that_event",
    "C140_hidden",
    "C140_by_name_refuted",
    "C140_attached_lost_refuted"
   ],
   "note": "Over every history of account calls, requests about events and other metadata calls (with table and column names without '/'): the refusals with their statuses for all requests but those by name, the answers, refused requests change nothing and tell nothing, carried-out requests leave all other events as they were. Missing because false: an event asked for by name is always answered 500 (C140_by_name_refuted); an attached property is shown in the answer and then lost, and none can be detached (C140_attached_lost_refuted)."
  },
  {
   "property": "C141",
   "status": "partial",
   "theorems": [
    "C141_refusals_partial",
    "C141_answers_partial",
    "C141_only_that_property",
    "C141_hidden",
    "C141_group_property_refuted"
   ],
   "note": "Over every history of account calls, requests about properties and other metadata calls (with table and column names without '/'): the refusals with their statuses and the answers for all requests but those for one property of a kind of groups by number, and for the five kinds of groups there are; refused requests change nothing and tell nothing, carried-out requests leave all other properties as they were. Missing because false: property i of groups of kind g is answered with property g of groups of kind i, or, from i = 5 on, not at all (C141_group_property_refuted); a kind of groups that does not exist is not answered."
  },
  {
   "property": "C142",
   "status": "partial",
   "theorems": [
    "C142_made_iff_partial",
    "C142_changed_iff_partial",
    "C142_shared_refuted"
   ],
   "note": "Exactly when a creation or a change is accepted, over all histories: the conditions of the statement and, besides, that no custom event is met twice among the parts and their parts. Missing because false: a custom event made of another and of one of its parts is refused although nothing is made of itself (C142_shared_refuted, whatever is stored)."
  },
  {
   "property": "C143",
   "status": "partial",
   "theorems": [
    "C143_made_iff_partial",
    "C143_changed_iff_partial",
    "C143_deleted_gone",
    "C143_own_names_refuted",
    "C143_contents_kept_refuted"
   ],
   "note": "Exactly when a creation or a change is accepted, what is stored then, that a refusal changes nothing, and that a deleted project, its name and its token are gone, over all histories that do not give a project one text as name and token (C37 shows what happens otherwise). Missing because false: a name used by a project of another organization is refused (C143_own_names_refuted), and the events of a deleted project stay stored and readable (C143_contents_kept_refuted)."
  }
 ]
}