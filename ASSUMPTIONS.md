# Answers of Print Assumptions

502 theorems.

| Theorem | File | Assumptions |
| --- | --- | --- |
| C01_log_record_round_trip | PropsLog.v | Closed under the global context |
| C02_reopen_replays_log | PropsLog.v | Closed under the global context |
| C03_torn_header_never_opens_refuted | PropsLog.v | Closed under the global context |
| C03_torn_tail_partial | PropsLog.v | Closed under the global context |
| C03_torn_tail_refuted | PropsLog.v | Closed under the global context |
| C04_memtable_is_row_list | PropsMemtable.v | Closed under the global context |
| C05_added_column_refuted | PropsTable.v | Closed under the global context |
| C05_reopen_same_rows_partial | PropsTable.v | Closed under the global context |
| C06_flush_preserves_contents | PropsTable.v | Closed under the global context |
| C07_acknowledged_inserts_survive | PropsTable.v | Closed under the global context |
| C07_with_added_columns | PropsTable.v | Closed under the global context |
| C08_crash_after_log_removal_refuted | PropsTable.v | Closed under the global context |
| C08_crash_after_metadata_refuted | PropsTable.v | Closed under the global context |
| C08_crash_before_metadata_partial | PropsTable.v | Closed under the global context |
| C08_orphan_part_loses_rows_refuted | PropsTable.v | Closed under the global context |
| C09_flush_during_scan_refuted | PropsConc.v | Closed under the global context |
| C09_scan_in_one_go | PropsConc.v | Closed under the global context |
| C09_scan_without_flush_partial | PropsConc.v | Closed under the global context |
| C100_counted_refuted | PropsFunnelRatio.v | Closed under the global context |
| C100_project_ignored_refuted | PropsFunnelRatio.v | Closed under the global context |
| C101_session_refuted | PropsFunnelRatio.v | Closed under the global context |
| C101_window_partial | PropsFunnelRatio.v | Closed under the global context |
| C101_year_refuted | PropsFunnelRatio.v | Closed under the global context |
| C102_append_merge | PropsPageMerge.v | Closed under the global context |
| C102_meets_the_contract | PropsPageMerge.v | Closed under the global context |
| C102_other_key_types_refuted | PropsPageMerge.v | Closed under the global context |
| C102_recorded_range | PropsPageMerge.v | Closed under the global context |
| C103_other_records_dropped_refuted | PropsPageMerge.v | Closed under the global context |
| C103_unsorted_refuted | PropsPageMerge.v | Closed under the global context |
| C103_values_shifted_refuted | PropsPageMerge.v | Closed under the global context |
| C104_admin_password_partial | PropsSettings.v | Closed under the global context |
| C104_settings_kept_partial | PropsSettings.v | Closed under the global context |
| C104_start_hour_refuted | PropsSettings.v | Closed under the global context |
| C104_starts_partial | PropsSettings.v | Closed under the global context |
| C105_changes_applied_partial | PropsSettings.v | Closed under the global context |
| C105_refused_changes_nothing | PropsSettings.v | Closed under the global context |
| C105_schedule_fixed_refuted | PropsSettings.v | Closed under the global context |
| C105_schedule_ignored_refuted | PropsSettings.v | Closed under the global context |
| C105_secrets_not_shown | PropsSettings.v | Closed under the global context |
| C105_shown | PropsSettings.v | Closed under the global context |
| C106_completed_is_stored_partial | PropsBackupJobs.v | Closed under the global context |
| C106_failed_dump_completed_refuted | PropsBackupJobs.v | Closed under the global context |
| C106_no_leftovers | PropsBackupJobs.v | Closed under the global context |
| C106_s3_leaves_file_refuted | PropsBackupJobs.v | Closed under the global context |
| C106_s3_stores_nothing_refuted | PropsBackupJobs.v | Closed under the global context |
| C106_same_hour_overwritten_refuted | PropsBackupJobs.v | Closed under the global context |
| C107_hour_stops_scheduler_refuted | PropsBackupJobs.v | Closed under the global context |
| C107_repeated_refuted | PropsBackupJobs.v | Closed under the global context |
| C107_s3_stops_scheduler_refuted | PropsBackupJobs.v | Closed under the global context |
| C107_scheduled_once_partial | PropsBackupJobs.v | Closed under the global context |
| C108_asked | PropsBackupJobs.v | Closed under the global context |
| C108_finished_stays | PropsBackupJobs.v | Closed under the global context |
| C108_restart_ends_running | PropsBackupJobs.v | Closed under the global context |
| C108_uploading_forever_refuted | PropsBackupJobs.v | Closed under the global context |
| C108_waiting_is_run | PropsBackupJobs.v | Closed under the global context |
| C109_accepted_requests | PropsAuth.v | Closed under the global context |
| C109_tokens_need_a_password | PropsAuth.v | Closed under the global context |
| C10_crash_keeps_acknowledged_partial | PropsConc.v | Closed under the global context |
| C10_flush_between_log_and_push_refuted | PropsConc.v | Closed under the global context |
| C10_record_into_removed_log_refuted | PropsConc.v | Closed under the global context |
| C110_administrators | PropsAuth.v | Closed under the global context |
| C110_deleted_accounts_stay_out | PropsAuth.v | Closed under the global context |
| C110_removed_members_lose_the_organization | PropsAuth.v | Closed under the global context |
| C110_role_change_refuted | PropsAuth.v | Closed under the global context |
| C111_organization_refuted | PropsAuth.v | Closed under the global context |
| C111_renewal_partial | PropsAuth.v | Closed under the global context |
| C111_renewal_refuted | PropsAuth.v | Closed under the global context |
| C112_changed_password | PropsAuth.v | Closed under the global context |
| C112_order_refuted | PropsAuth.v | Closed under the global context |
| C112_sessions_refuted | PropsAuth.v | Closed under the global context |
| C112_who_changes_passwords | PropsAuth.v | Closed under the global context |
| C113_addresses_are_unique | PropsAuth.v | Closed under the global context |
| C113_organization | PropsAuth.v | Closed under the global context |
| C113_remembered_organization_refuted | PropsAuth.v | Closed under the global context |
| C113_repetition_refuted | PropsAuth.v | Closed under the global context |
| C113_right_password_partial | PropsAuth.v | Closed under the global context |
| C113_unusable_account_refuted | PropsAuth.v | Closed under the global context |
| C113_wrong_password | PropsAuth.v | Closed under the global context |
| C114_first_restart_refuted | PropsStart.v | Closed under the global context |
| C114_restart_partial | PropsStart.v | Closed under the global context |
| C114_restart_refuted | PropsStart.v | Closed under the global context |
| C115_accounts_partial | PropsStored.v | Closed under the global context |
| C115_backups_partial | PropsStored.v | Closed under the global context |
| C115_dashboards_partial | PropsStored.v | Closed under the global context |
| C115_event_properties_refuted | PropsNames.v | Closed under the global context |
| C115_events_partial | PropsStored.v | Closed under the global context |
| C115_group_values_partial | PropsStored.v | Closed under the global context |
| C115_groups | PropsStored.v | Closed under the global context |
| C115_organizations_partial | PropsStored.v | Closed under the global context |
| C115_projects_partial | PropsStored.v | Closed under the global context |
| C115_properties_partial | PropsStored.v | Closed under the global context |
| C115_sessions_partial | PropsStored.v | Closed under the global context |
| C115_teams_partial | PropsStored.v | Closed under the global context |
| C115_times_refuted | PropsStored.v | Closed under the global context |
| C116_bookmark_fields | PropsStored.v | Closed under the global context |
| C116_bookmark_kept | PropsSavedTimes.v | Closed under the global context |
| C116_bookmarks | PropsSavedTimes.v | Closed under the global context |
| C116_report_changed | PropsSavedTimes.v | Closed under the global context |
| C116_report_fields | PropsStored.v | Closed under the global context |
| C116_report_kept | PropsSavedTimes.v | Closed under the global context |
| C116_reports | PropsSavedTimes.v | Closed under the global context |
| C117_absent_values_refuted | PropsStored.v | Closed under the global context |
| C117_can_be_written | PropsStored.v | Closed under the global context |
| C117_custom_events_partial | PropsStored.v | Closed under the global context |
| C117_numbers_refuted | PropsStored.v | Closed under the global context |
| C118_dangling_panels_refuted | PropsBoards.v | Closed under the global context |
| C118_dashboard_create_partial | PropsBoards.v | Closed under the global context |
| C118_dashboard_delete | PropsBoards.v | Closed under the global context |
| C118_dashboard_list | PropsBoards.v | Closed under the global context |
| C118_dashboard_numbers | PropsBoards.v | Closed under the global context |
| C118_dashboard_update_partial | PropsBoards.v | Closed under the global context |
| C118_deleted_report_stays_gone | PropsBoards.v | Closed under the global context |
| C118_deleted_stays_gone | PropsBoards.v | Closed under the global context |
| C118_kinds_apart | PropsBoards.v | Closed under the global context |
| C118_list_order_refuted | PropsBoards.v | Closed under the global context |
| C118_report_create_partial | PropsBoards.v | Closed under the global context |
| C118_report_delete | PropsBoards.v | Closed under the global context |
| C118_report_list | PropsBoards.v | Closed under the global context |
| C118_report_numbers | PropsBoards.v | Closed under the global context |
| C118_report_type_refuted | PropsBoards.v | Closed under the global context |
| C118_report_update_partial | PropsBoards.v | Closed under the global context |
| C119_bookmark_create_partial | PropsBoards.v | Closed under the global context |
| C119_bookmark_kept | PropsBoards.v | Closed under the global context |
| C119_bookmark_private | PropsBoards.v | Closed under the global context |
| C119_same_text_refuted | PropsBoards.v | Closed under the global context |
| C11_memory_lookup_last_write | PropsMemtable.v | Closed under the global context |
| C120_organization_refuted | PropsAccess.v | Closed under the global context |
| C120_owners_partial | PropsAccess.v | Closed under the global context |
| C120_project_refuted | PropsAccess.v | Closed under the global context |
| C121_exclusion_drift_refuted | PropsRequests.v | Closed under the global context |
| C121_exclusion_zero_refuted | PropsRequests.v | Closed under the global context |
| C121_given_back_partial | PropsRequests.v | Closed under the global context |
| C121_groups_refuted | PropsRequests.v | Closed under the global context |
| C121_number_refuted | PropsRequests.v | Closed under the global context |
| C121_unchanged_partial | PropsRequests.v | Closed under the global context |
| C122_accepted_empty_groups_refuted | PropsRequests.v | Closed under the global context |
| C122_accepted_null_refuted | PropsRequests.v | Closed under the global context |
| C122_check_group_exact | PropsRequests.v | Closed under the global context |
| C122_conversion_exact | PropsRequests.v | Closed under the global context |
| C123_funnel_asked_partial | PropsRequests.v | Closed under the global context |
| C123_groups_refuted | PropsRequests.v | Closed under the global context |
| C123_segmentation_asked_partial | PropsRequests.v | Closed under the global context |
| C124_exclusion_range_refuted | PropsRequests.v | Closed under the global context |
| C124_filter_exact | PropsRequests.v | Closed under the global context |
| C124_funnel_exact | PropsRequests.v | Closed under the global context |
| C124_int32_order_refuted | PropsRequests.v | Closed under the global context |
| C124_segmentation_exact | PropsRequests.v | Closed under the global context |
| C124_truth_refuted | PropsRequests.v | Closed under the global context |
| C125_crash_only_partial | PropsServer.v | Closed under the global context |
| C125_easy_calls_never_crash_partial | PropsServer.v | Closed under the global context |
| C125_one_crash_stops_the_rest_refuted | PropsServer.v | Closed under the global context |
| C125_same_until_crash_partial | PropsServer.v | Closed under the global context |
| C126_link_closes_project_refuted | PropsServer.v | Closed under the global context |
| C127_groups_accepted_partial | PropsFit.v | Closed under the global context |
| C127_identify_accepted_partial | PropsFit.v | Closed under the global context |
| C127_valid_call_accepted_partial | PropsLive.v | Closed under the global context |
| C128_answer_shows_partial | PropsAnswers.v | Closed under the global context |
| C128_crash_exact | PropsAnswers.v | Closed under the global context |
| C128_formats_agree | PropsAnswers.v | Closed under the global context |
| C128_missing_number_refuted | PropsAnswers.v | Closed under the global context |
| C128_order_kept | PropsAnswers.v | Closed under the global context |
| C129_crash_exact | PropsAnswers.v | Closed under the global context |
| C129_figures | PropsAnswers.v | Closed under the global context |
| C129_group_names_partial | PropsAnswers.v | Closed under the global context |
| C129_group_names_refuted | PropsAnswers.v | Closed under the global context |
| C12_first_range_decides_partial | PropsGet.v | Closed under the global context |
| C12_lookup_partial | PropsGet.v | Closed under the global context |
| C12_oldest_after_flush_refuted | PropsGet.v | Closed under the global context |
| C12_other_key_types_refuted | PropsGet.v | Closed under the global context |
| C12_row_group_box_refuted | PropsGet.v | Closed under the global context |
| C12_smallest_prefix_refuted | PropsGet.v | Closed under the global context |
| C12_spanned_key_refuted | PropsGet.v | Closed under the global context |
| C12_types | PropsGet.v | Closed under the global context |
| C12_unflushed_newest | PropsGet.v | Closed under the global context |
| C130_no_dates_partial | PropsFit.v | Closed under the global context |
| C130_refused_date_spoils_record_refuted | PropsSpoil.v | Closed under the global context |
| C131_calls_accepted | PropsNewProject.v | Closed under the global context |
| C131_new_project_ready | PropsNewProject.v | Closed under the global context |
| C131_rename_shows | PropsNewProject.v | Closed under the global context |
| C132_empty_groups_refuted | PropsSearchRequests.v | Closed under the global context |
| C132_event_search_accepted_exact | PropsSearchRequests.v | Closed under the global context |
| C132_event_search_asked_partial | PropsSearchRequests.v | Closed under the global context |
| C132_event_search_stops_exact | PropsSearchRequests.v | Closed under the global context |
| C132_far_moment_refuted | PropsSearchRequests.v | Closed under the global context |
| C132_group_search_accepted_exact | PropsSearchRequests.v | Closed under the global context |
| C132_group_search_asked_partial | PropsSearchRequests.v | Closed under the global context |
| C132_group_search_stops_exact | PropsSearchRequests.v | Closed under the global context |
| C132_later_groups_dropped_refuted | PropsSearchRequests.v | Closed under the global context |
| C132_moment_exact | PropsSearchRequests.v | Closed under the global context |
| C132_moment_partial | PropsSearchRequests.v | Closed under the global context |
| C132_moment_release_refuted | PropsSearchRequests.v | Closed under the global context |
| C132_sixth_group_refuted | PropsSearchRequests.v | Closed under the global context |
| C132_sort_dropped_refuted | PropsSearchRequests.v | Closed under the global context |
| C132_values_accepted_exact | PropsSearchRequests.v | Closed under the global context |
| C132_values_asked | PropsSearchRequests.v | Closed under the global context |
| C132_values_stops_exact | PropsSearchRequests.v | Closed under the global context |
| C133_collision_refuted | PropsReportTable.v | Closed under the global context |
| C133_formula | PropsReportTable.v | Closed under the global context |
| C133_given_name_refuted | PropsReportTable.v | Closed under the global context |
| C133_lost_column_refuted | PropsReportTable.v | Closed under the global context |
| C133_numbered_name_refuted | PropsReportTable.v | Closed under the global context |
| C133_same_formula_refuted | PropsReportTable.v | Closed under the global context |
| C133_table_partial | PropsReportTable.v | Closed under the global context |
| C133_titles_distinct_partial | PropsReportTable.v | Closed under the global context |
| C134_carried_out | PropsAuthStatus.v | Closed under the global context |
| C134_cookie | PropsAuthStatus.v | Closed under the global context |
| C134_cookie_first_refuted | PropsAuthStatus.v | Closed under the global context |
| C134_deleted_account_refuted | PropsAuthStatus.v | Closed under the global context |
| C134_log_in_tells_nothing | PropsAuthStatus.v | Closed under the global context |
| C134_refusals | PropsAuthStatus.v | Closed under the global context |
| C134_refused_changes_nothing | PropsAuthStatus.v | Closed under the global context |
| C134_remembered_organization_refuted | PropsAuthStatus.v | Closed under the global context |
| C134_same_server | PropsAuthStatus.v | Closed under the global context |
| C134_statuses | PropsAuthStatus.v | Closed under the global context |
| C134_taken_address_refuted | PropsAuthStatus.v | Closed under the global context |
| C134_tokens_belong_together | PropsAuthStatus.v | Closed under the global context |
| C135_answered | PropsNumbers.v | Closed under the global context |
| C135_big_sums_refuted | PropsNumbers.v | Closed under the global context |
| C135_counted_partial | PropsNumbers.v | Closed under the global context |
| C135_counts_of_texts_refuted | PropsNumbers.v | Closed under the global context |
| C135_per_user_partial | PropsNumbers.v | Closed under the global context |
| C135_property_partial | PropsNumbers.v | Closed under the global context |
| C135_texts_are_summed_refuted | PropsNumbers.v | Closed under the global context |
| C136_bad_request | PropsIngestStatus.v | Closed under the global context |
| C136_date_refuted | PropsIngestStatus.v | Closed under the global context |
| C136_kinds_refuted | PropsIngestStatus.v | Closed under the global context |
| C136_nothing_changes | PropsIngestStatus.v | Closed under the global context |
| C136_refused_creates_properties_refuted | PropsIngestStatus.v | Closed under the global context |
| C136_statuses | PropsIngestStatus.v | Closed under the global context |
| C136_success | PropsIngestStatus.v | Closed under the global context |
| C137_read | PropsTimeText.v | Closed under the global context |
| C137_round_trip | PropsTimeText.v | Closed under the global context |
| C137_written | PropsTimeText.v | Closed under the global context |
| C138_answers | PropsBoardCalls.v | Closed under the global context |
| C138_hidden | PropsBoardCalls.v | Closed under the global context |
| C138_maker_kept | PropsBoardCalls.v | Closed under the global context |
| C138_only_makers_change | PropsBoardCalls.v | Closed under the global context |
| C138_only_members_change | PropsBoardCalls.v | Closed under the global context |
| C138_refusals | PropsBoardCalls.v | Closed under the global context |
| C138_refused_changes_nothing | PropsBoardCalls.v | Closed under the global context |
| C138_report_maker_kept | PropsBoardCalls.v | Closed under the global context |
| C138_stops | PropsBoardCalls.v | Closed under the global context |
| C139_change_noticed_partial | PropsDamage.v | Closed under the global context |
| C139_length_changed_partial | PropsDamage.v | Closed under the global context |
| C139_lost_insert_refuted | PropsDamage.v | Closed under the global context |
| C139_shown_was_checked | PropsDamage.v | Closed under the global context |
| C13_written_rows_sorted_permutation | PropsMemtable.v | Closed under the global context |
| C140_answers | PropsEventCalls.v | Closed under the global context |
| C140_attached_lost_refuted | PropsEventCalls.v | Closed under the global context |
| C140_by_name_refuted | PropsEventCalls.v | Closed under the global context |
| C140_hidden | PropsEventCalls.v | Closed under the global context |
| C140_only_that_event | PropsEventCalls.v | Closed under the global context |
| C140_refusals_partial | PropsEventCalls.v | Closed under the global context |
| C141_answers_partial | PropsPropCalls.v | Closed under the global context |
| C141_group_property_refuted | PropsPropCalls.v | Closed under the global context |
| C141_hidden | PropsPropCalls.v | Closed under the global context |
| C141_only_that_property | PropsPropCalls.v | Closed under the global context |
| C141_refusals_partial | PropsPropCalls.v | Closed under the global context |
| C142_changed_iff_partial | PropsCustomAccept.v | Closed under the global context |
| C142_made_iff_partial | PropsCustomAccept.v | Closed under the global context |
| C142_shared_refuted | PropsCustomAccept.v | Closed under the global context |
| C143_changed_iff_partial | PropsProjectNames.v | Closed under the global context |
| C143_contents_kept_refuted | PropsProjectNames.v | Closed under the global context |
| C143_deleted_gone | PropsProjectNames.v | Closed under the global context |
| C143_made_iff_partial | PropsProjectNames.v | Closed under the global context |
| C143_own_names_refuted | PropsProjectNames.v | Closed under the global context |
| C14_newest_if_sort_stable_partial | PropsMemtable.v | Closed under the global context |
| C14_newest_refuted | PropsMemtable.v | Closed under the global context |
| C14_one_row_per_key_partial | PropsMemtable.v | Closed under the global context |
| C14_other_key_widths_refuted | PropsMemtable.v | Closed under the global context |
| C15_merge_returns_every_row_once_in_order | PropsScan.v | Closed under the global context |
| C15_scan_after_history | PropsScan.v | Closed under the global context |
| C16_distinct_keys_partial | PropsScan.v | Closed under the global context |
| C16_returned_rows_are_stored_partial | PropsScan.v | Closed under the global context |
| C16_superseded_row_returned_refuted | PropsScan.v | Closed under the global context |
| C17_level0_selects_once | PropsCompact.v | Closed under the global context |
| C17_lone_part_moved_refuted | PropsCompact.v | Closed under the global context |
| C17_merge_writes_each_mention_refuted | PropsCompact.v | Closed under the global context |
| C17_page_merge_preserves_contents_partial | PropsPageMerge.v | Closed under the global context |
| C17_pass_changes_no_scan_partial | PropsCompact.v | Closed under the global context |
| C17_passes_preserve_contents_partial | PropsCompact.v | Closed under the global context |
| C17_repeated_selection_refuted | PropsCompact.v | Closed under the global context |
| C17_selection_repeats_iff | PropsCompact.v | Closed under the global context |
| C17_three_levels_partial | PropsCompact.v | Closed under the global context |
| C18_paths_never_reused | PropsCompact.v | Closed under the global context |
| C19_held_file_stays | PropsFs.v | Closed under the global context |
| C19_remove_iff_unheld | PropsFs.v | Closed under the global context |
| C19_scan_keeps_its_files | PropsFs.v | Closed under the global context |
| C20_restore_reproduces_database | PropsBackup.v | Closed under the global context |
| C21_failed_restore_loses_all_tables_refuted | PropsBackup.v | Closed under the global context |
| C21_stream_without_footer_is_rejected_partial | PropsBackup.v | Closed under the global context |
| C21_truncated_backup_is_rejected_partial | PropsBackup.v | Closed under the global context |
| C22_large_version_refuted | PropsMd.v | Closed under the global context |
| C22_metadata_file_holds_last_write | PropsMd.v | Closed under the global context |
| C22_metadata_round_trip | PropsMd.v | Closed under the global context |
| C23_accepted_insert_adds_one_row_partial | PropsTable.v | Closed under the global context |
| C23_misplaced_key_refuted | PropsTable.v | Closed under the global context |
| C23_rejected_insert_has_no_effect | PropsTable.v | Closed under the global context |
| C24_changed_in_between_refuted | PropsCas.v | Closed under the global context |
| C24_forgotten_refuted | PropsCas.v | Closed under the global context |
| C24_replace_checks_version_partial | PropsCas.v | Closed under the global context |
| C24_retry_accepted_refuted | PropsCas.v | Closed under the global context |
| C24_unread_accepted_refuted | PropsCas.v | Closed under the global context |
| C25_created_ids_increase | PropsKeys.v | Closed under the global context |
| C25_sequence_consecutive | PropsKeys.v | Closed under the global context |
| C26_later_request_refuted | PropsSeqRace.v | Closed under the global context |
| C26_same_number_refuted | PropsSeqRace.v | Closed under the global context |
| C26_serial_partial | PropsSeqRace.v | Closed under the global context |
| C26_two_requests_refuted | PropsSeqRace.v | Closed under the global context |
| C26_undisturbed_partial | PropsSeqRace.v | Closed under the global context |
| C27_create_key_refuted | PropsDict.v | Closed under the global context |
| C27_encoding_stable_bijection | PropsDict.v | Closed under the global context |
| C28_column_names_have_no_slash | PropsKeys.v | Closed under the global context |
| C28_dictionaries_independent | PropsKeys.v | Closed under the global context |
| C29_calls_stay_in_their_family | PropsKeys.v | Closed under the global context |
| C29_keys_distinct | PropsKeys.v | Closed under the global context |
| C29_listing_only_own | PropsKeys.v | Closed under the global context |
| C29_slash_refuted | PropsKeys.v | Closed under the global context |
| C30_event_names_unique | PropsNames.v | Closed under the global context |
| C30_free_name_can_be_taken | PropsNames.v | Closed under the global context |
| C30_property_name_taken | PropsPropNames.v | Closed under the global context |
| C30_property_names_unique | PropsPropNames.v | Closed under the global context |
| C31_recreated_event_refuted | PropsDict.v | Closed under the global context |
| C31_renamed_event_shows_old_name_refuted | PropsDict.v | Closed under the global context |
| C31_shown_by_name_partial | PropsDict.v | Closed under the global context |
| C32_accepted_event_depth_partial | PropsCustom.v | Closed under the global context |
| C32_depth_refuted | PropsCustom.v | Closed under the global context |
| C32_depth_without_updates_partial | PropsCustom.v | Closed under the global context |
| C32_no_cycles | PropsCustom.v | Closed under the global context |
| C33_identifier_kept_partial | PropsGroups.v | Closed under the global context |
| C33_merge_breaks_group_refuted | PropsGroups.v | Closed under the global context |
| C33_merge_shares_identifier_refuted | PropsGroups.v | Closed under the global context |
| C34_at_most_five_types | PropsGroups.v | Closed under the global context |
| C34_sixth_type_refused | PropsGroups.v | Closed under the global context |
| C35_deleted_account_refuted | PropsMembers.v | Closed under the global context |
| C35_deleted_organization_refuted | PropsMembers.v | Closed under the global context |
| C35_membership_agrees_partial | PropsMembers.v | Closed under the global context |
| C36_emails_unique | PropsNames.v | Closed under the global context |
| C36_used_email_refused | PropsNames.v | Closed under the global context |
| C37_accepted_strings_partial | PropsNames.v | Closed under the global context |
| C37_name_accepted_as_token_refuted | PropsNames.v | Closed under the global context |
| C37_token_lost_on_rename_refuted | PropsNames.v | Closed under the global context |
| C38_expiry_exact | PropsSessions.v | Closed under the global context |
| C38_session_open_exactly | PropsSessions.v | Closed under the global context |
| C39_listed_once | PropsKeys.v | Closed under the global context |
| C39_listing_complete_partial | PropsKeys.v | Closed under the global context |
| C39_teams_listed_partial | PropsKeys.v | Closed under the global context |
| C39_teams_refuted | PropsKeys.v | Closed under the global context |
| C40_columns_distinct_partial | PropsColumns.v | Closed under the global context |
| C40_system_columns_refuted | PropsColumns.v | Closed under the global context |
| C40_type_change_refuted | PropsColumns.v | Closed under the global context |
| C41_calls_exact | PropsAccess.v | Closed under the global context |
| C41_denied_without_role | PropsAccess.v | Closed under the global context |
| C41_project_access_exact | PropsAccess.v | Closed under the global context |
| C41_project_calls_exact | PropsAccess.v | Closed under the global context |
| C41_readers_change_nothing | PropsAccess.v | Closed under the global context |
| C41_roles_nested | PropsAccess.v | Closed under the global context |
| C42_access_needs_role_partial | PropsAccess.v | Closed under the global context |
| C42_other_organization_refuted | PropsAccess.v | Closed under the global context |
| C43_listing_exact | PropsAccess.v | Closed under the global context |
| C44_same_bucket_iff_same_interval | PropsCalendar.v | Closed under the global context |
| C44_trunc_idempotent | PropsCalendar.v | Closed under the global context |
| C44_trunc_is_interval_start | PropsCalendar.v | Closed under the global context |
| C44_trunc_monotone | PropsCalendar.v | Closed under the global context |
| C45_columns_cover_range | PropsCalendar.v | Closed under the global context |
| C46_months_refuted | PropsFunnelBuckets.v | Closed under the global context |
| C46_next_month_refuted | PropsFunnelBuckets.v | Closed under the global context |
| C46_next_year_refuted | PropsFunnelBuckets.v | Closed under the global context |
| C46_regular_intervals_partial | PropsFunnelBuckets.v | Closed under the global context |
| C46_without_bucket_lost_refuted | PropsFunnelBuckets.v | Closed under the global context |
| C47_steps_never_increase | PropsFunnel.v | Closed under the global context |
| C48_batches_do_not_matter_partial | PropsFunnel.v | Closed under the global context |
| C48_constants_refuted | PropsFunnel.v | Closed under the global context |
| C48_segments_refuted | PropsFunnel.v | Closed under the global context |
| C48_unique_refuted | PropsFunnel.v | Closed under the global context |
| C49_other_users_refuted | PropsFunnel.v | Closed under the global context |
| C49_report_is_specified_partial | PropsFunnel.v | Closed under the global context |
| C50_conversions_at_most_users_partial | PropsFunnelRules.v | Closed under the global context |
| C50_user_counted_again_refuted | PropsFunnelRules.v | Closed under the global context |
| C51_no_excluded_event_inside_partial | PropsFunnelRules.v | Closed under the global context |
| C51_ranged_exclusions_refuted | PropsFunnelRules.v | Closed under the global context |
| C52_event_counts_exact | PropsCounts.v | Closed under the global context |
| C53_own_filter_refuted | PropsCounts.v | Closed under the global context |
| C53_unique_counts_exact | PropsCounts.v | Closed under the global context |
| C54_aggregates_exact | PropsCounts.v | Closed under the global context |
| C55_aggregates_any_workers_partial | PropsReport.v | Closed under the global context |
| C55_average_beside_others_refuted | PropsReport.v | Closed under the global context |
| C55_average_workers_refuted | PropsReport.v | Closed under the global context |
| C55_counts_and_sums_partial | PropsReport.v | Closed under the global context |
| C55_counts_any_workers | PropsReport.v | Closed under the global context |
| C55_counts_per_user_any_workers_partial | PropsReport.v | Closed under the global context |
| C55_minimum_beside_others_refuted | PropsReport.v | Closed under the global context |
| C55_property_per_user_any_workers_partial | PropsReport.v | Closed under the global context |
| C55_unique_any_workers | PropsReport.v | Closed under the global context |
| C56_did_event_exact_partial | PropsSegment.v | Closed under the global context |
| C56_missing_group_refuted | PropsSegment.v | Closed under the global context |
| C56_no_rows_refuted | PropsSegment.v | Closed under the global context |
| C56_users_with_event_partial | PropsSegment.v | Closed under the global context |
| C56_users_without_event_refuted | PropsSegment.v | Closed under the global context |
| C57_different_users_refuted | PropsSegment.v | Closed under the global context |
| C57_same_users_partial | PropsSegment.v | Closed under the global context |
| C58_absent_refuted | PropsFilter.v | Closed under the global context |
| C58_filters_partial | PropsFilter.v | Closed under the global context |
| C58_none_of_refuted | PropsFilter.v | Closed under the global context |
| C58_pattern_and_value_refuted | PropsFilter.v | Closed under the global context |
| C59_custom_events_partial | PropsFilter.v | Closed under the global context |
| C59_large_id_refuted | PropsFilter.v | Closed under the global context |
| C59_pattern_filter_refuted | PropsFilter.v | Closed under the global context |
| C60_limit_partial | PropsShape.v | Closed under the global context |
| C60_one_breakdown | PropsShape.v | Closed under the global context |
| C60_quota_used_by_dropped_rows_refuted | PropsShape.v | Closed under the global context |
| C61_many_groups_refuted | PropsShape.v | Closed under the global context |
| C61_null_groups_collide | PropsShape.v | Closed under the global context |
| C61_null_groups_merged_refuted | PropsShape.v | Closed under the global context |
| C61_pivot_places_values_partial | PropsShape.v | Closed under the global context |
| C61_unpivot_order_refuted | PropsShape.v | Closed under the global context |
| C61_unpivot_partial | PropsShape.v | Closed under the global context |
| C62_lacking_column_refuted | PropsShape.v | Closed under the global context |
| C62_merge_partial | PropsShape.v | Closed under the global context |
| C63_projection_partial | PropsMemtable.v | Closed under the global context |
| C63_replacing_projection_drops_rows_refuted | PropsMemtable.v | Closed under the global context |
| C63_request_order_refuted | PropsMemtable.v | Closed under the global context |
| C64_number_kept_iff_partial | PropsIngest.v | Closed under the global context |
| C64_whole_numbers_refuted | PropsIngest.v | Closed under the global context |
| C65_session_time_refuted | PropsIngest.v | Closed under the global context |
| C65_tracked_once_partial | PropsIngest.v | Closed under the global context |
| C66_calls_with_both_ids_partial | PropsPeople.v | Closed under the global context |
| C66_link_refuted | PropsPeople.v | Closed under the global context |
| C67_other_groups_refuted | PropsPeople.v | Closed under the global context |
| C67_user_strings_partial | PropsPeople.v | Closed under the global context |
| C68_integer_keys_flush_partial | PropsTable.v | Closed under the global context |
| C68_replacing_key_count_refuted | PropsTable.v | Closed under the global context |
| C68_string_key_refuted | PropsTable.v | Closed under the global context |
| C69_abandoned_scan_leaks_refuted | PropsFs.v | Closed under the global context |
| C69_compacted_parts_leak_refuted | PropsFs.v | Closed under the global context |
| C69_completed_scans_release_partial | PropsFs.v | Closed under the global context |
| C69_flushed_parts_are_deleted_partial | PropsFs.v | Closed under the global context |
| C70_restore_after_failure_refuted | PropsBackup.v | Closed under the global context |
| C71_after_restore_refuted | PropsFs.v | Closed under the global context |
| C71_output_survives_gc_partial | PropsFs.v | Closed under the global context |
| C72_regular_end_is_complete_partial | PropsScan.v | Closed under the global context |
| C72_unsupported_key_type_refuted | PropsScan.v | Closed under the global context |
| C73_large_array_size_partial | PropsScan.v | Closed under the global context |
| C73_replacing_scan_panics_refuted | PropsScan.v | Closed under the global context |
| C74_fewer_columns_than_key_refuted | PropsScan.v | Closed under the global context |
| C74_projection_with_key_partial | PropsScan.v | Closed under the global context |
| C75_date_never_accepted_refuted | PropsIngest.v | Closed under the global context |
| C75_strings_and_booleans_partial | PropsIngest.v | Closed under the global context |
| C76_rejected_track_adds_no_row_partial | PropsIngest.v | Closed under the global context |
| C76_rejected_track_opens_session_refuted | PropsIngest.v | Closed under the global context |
| C77_counts_per_user_exact | PropsCounts.v | Closed under the global context |
| C78_missing_property_refuted | PropsCounts.v | Closed under the global context |
| C78_property_per_user_partial | PropsCounts.v | Closed under the global context |
| C79_groups_everywhere_partial | PropsCounts.v | Closed under the global context |
| C79_missing_group_refuted | PropsCounts.v | Closed under the global context |
| C80_last_segment_refuted | PropsSegment.v | Closed under the global context |
| C80_segments_refuted | PropsSegment.v | Closed under the global context |
| C81_first_user_refuted | PropsSegment.v | Closed under the global context |
| C81_users_with_event_partial | PropsSegment.v | Closed under the global context |
| C82_seen_values_partial | PropsFilter.v | Closed under the global context |
| C82_unseen_value_refuted | PropsFilter.v | Closed under the global context |
| C83_text_order_refuted | PropsFilter.v | Closed under the global context |
| C84_not_attached_refuted | PropsGroupRows.v | Closed under the global context |
| C84_user_values_partial | PropsGroupRows.v | Closed under the global context |
| C85_versions_grow | PropsGroupRows.v | Closed under the global context |
| C86_column_added_during_insert_refuted | PropsConc.v | Closed under the global context |
| C86_columns_added_between_inserts_partial | PropsConc.v | Closed under the global context |
| C87_crash_after_publishing_partial | PropsCompact.v | Closed under the global context |
| C87_crash_before_publishing | PropsCompact.v | Closed under the global context |
| C87_crash_before_rename_refuted | PropsCompact.v | Closed under the global context |
| C88_moved_part_merged_refuted | PropsCompact.v | Closed under the global context |
| C88_one_level_refuted | PropsCompact.v | Closed under the global context |
| C88_three_levels_complete_partial | PropsCompact.v | Closed under the global context |
| C89_sorted_by_average | PropsShape.v | Closed under the global context |
| C90_compact_count_refuted | PropsShape.v | Closed under the global context |
| C90_compact_decimal_partial | PropsShape.v | Closed under the global context |
| C90_compact_long_period_refuted | PropsShape.v | Closed under the global context |
| C91_event_id_needed_refuted | PropsRecords.v | Closed under the global context |
| C91_events_forgotten_refuted | PropsRecords.v | Closed under the global context |
| C91_filter_column_refuted | PropsRecords.v | Closed under the global context |
| C91_filters_ignored_refuted | PropsRecords.v | Closed under the global context |
| C91_search_partial | PropsRecords.v | Closed under the global context |
| C92_group_search_partial | PropsRecords.v | Closed under the global context |
| C92_time_ignored_refuted | PropsRecords.v | Closed under the global context |
| C93_all_properties_partial | PropsRecords.v | Closed under the global context |
| C93_labels_by_position_refuted | PropsRecords.v | Closed under the global context |
| C93_other_columns_refuted | PropsRecords.v | Closed under the global context |
| C94_absent_value_refuted | PropsLookup.v | Closed under the global context |
| C94_lookup_partial | PropsLookup.v | Closed under the global context |
| C94_missing_record_refuted | PropsLookup.v | Closed under the global context |
| C95_meaning_lost_refuted | PropsLookup.v | Closed under the global context |
| C95_one_group_partial | PropsLookup.v | Closed under the global context |
| C95_only_first_group_refuted | PropsLookup.v | Closed under the global context |
| C96_custom_event_refuted | PropsLookup.v | Closed under the global context |
| C96_dictionary_filter_refuted | PropsLookup.v | Closed under the global context |
| C96_values_partial | PropsLookup.v | Closed under the global context |
| C97_any_distribution_partial | PropsFunnelRatio.v | Closed under the global context |
| C97_same_worker_refuted | PropsFunnelRatio.v | Closed under the global context |
| C97_totals_partial | PropsFunnelRatio.v | Closed under the global context |
| C98_one_worker_partial | PropsFunnelRatio.v | Closed under the global context |
| C98_several_workers_refuted | PropsFunnelRatio.v | Closed under the global context |
| C99_average_time_refuted | PropsFunnelRatio.v | Closed under the global context |
