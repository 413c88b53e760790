{
 "claims": [
  {
   "property": "C01",
   "status": "proved",
   "theorems": [
    "C01_rows_well_formed"
   ],
   "note": ""
  },
  {
   "property": "C02",
   "status": "proved",
   "theorems": [
    "C02_position_search"
   ],
   "note": ""
  },
  {
   "property": "C03",
   "status": "proved",
   "theorems": [
    "C03_search_sound_complete"
   ],
   "note": ""
  },
  {
   "property": "C04",
   "status": "proved",
   "theorems": [
    "C04_results_sorted_and_counted"
   ],
   "note": ""
  },
  {
   "property": "C05",
   "status": "proved",
   "theorems": [
    "C05_forced_calls_are_a_map"
   ],
   "note": ""
  },
  {
   "property": "C06",
   "status": "proved",
   "theorems": [
    "C06_batching_is_transparent",
    "C06_distinct_ids"
   ],
   "note": ""
  },
  {
   "property": "C07",
   "status": "proved",
   "theorems": [
    "C07_removed_invisible_at_once",
    "C07_removed_stays_invisible",
    "C07_waiting_version_returns_refuted"
   ],
   "note": ""
  },
  {
   "property": "C08",
   "status": "proved",
   "theorems": [
    "C08_removal_is_local"
   ],
   "note": ""
  },
  {
   "property": "C09",
   "status": "proved",
   "theorems": [
    "C09_reindexing_replaces"
   ],
   "note": ""
  },
  {
   "property": "C10",
   "status": "proved",
   "theorems": [
    "C10_live_counter"
   ],
   "note": ""
  },
  {
   "property": "C11",
   "status": "proved",
   "theorems": [
    "C11_remove_never_crashes",
    "C11_no_readd_no_crash"
   ],
   "note": ""
  },
  {
   "property": "C12",
   "status": "proved",
   "theorems": [
    "C12_add_crashes_iff_full",
    "C12_crash_reachable"
   ],
   "note": ""
  },
  {
   "property": "C13",
   "status": "proved",
   "theorems": [
    "C13_one_version_survives",
    "C13_last_wins_refuted",
    "C13_sort_is_stable"
   ],
   "note": "Positive part for all states; the documented 'last wins' is refuted by a concrete history with a stable sort."
  },
  {
   "property": "C14",
   "status": "proved",
   "theorems": [
    "C14_remove_of_waiting_is_noop",
    "C14_index_remove_flush_refuted"
   ],
   "note": "Exact effect for all states; the naive claim is refuted for every fresh document and cache size >= 2."
  },
  {
   "property": "C15",
   "status": "proved",
   "theorems": [
    "C15_zero_not_removable",
    "C15_zero_never_indexed",
    "C15_zero_never_indexed_concurrently"
   ],
   "note": ""
  },
  {
   "property": "C16",
   "status": "proved",
   "theorems": [
    "C16_which_searches_crash"
   ],
   "note": ""
  },
  {
   "property": "C17",
   "status": "proved",
   "theorems": [
    "C17_proximity_realisable",
    "C17_snippets_are_locations"
   ],
   "note": ""
  },
  {
   "property": "C18",
   "status": "proved",
   "theorems": [
    "C18_proximity_minimal",
    "C18_overlap_refuted"
   ],
   "note": ""
  },
  {
   "property": "C19",
   "status": "proved",
   "theorems": [
    "C19_fields_of_the_hit"
   ],
   "note": ""
  },
  {
   "property": "C20",
   "status": "proved",
   "theorems": [
    "C20_total_is_the_sum",
    "C20_small_additions",
    "C20_forced_histories",
    "C20_drift_refuted"
   ],
   "note": ""
  },
  {
   "property": "C21",
   "status": "proved",
   "theorems": [
    "C21_must_search_exact"
   ],
   "note": ""
  },
  {
   "property": "C22",
   "status": "proved",
   "theorems": [
    "C22_should_search",
    "C22_filter_respected_refuted"
   ],
   "note": ""
  },
  {
   "property": "C23",
   "status": "proved",
   "theorems": [
    "C23_not_only_returns_the_excluded"
   ],
   "note": ""
  },
  {
   "property": "C24",
   "status": "proved",
   "theorems": [
    "C24_only_the_parts_matter",
    "C24_query_words_ignored",
    "C24_otherwise_plain"
   ],
   "note": ""
  },
  {
   "property": "C25",
   "status": "proved",
   "theorems": [
    "C25_which_logic_searches_crash"
   ],
   "note": ""
  },
  {
   "property": "C26",
   "status": "proved",
   "theorems": [
    "C26_must_search_sees_pending",
    "C26_should_search_sees_pending",
    "C26_removal_unnoticed",
    "C26_flushed_agrees"
   ],
   "note": ""
  },
  {
   "property": "C27",
   "status": "proved",
   "theorems": [
    "C27_last_write_wins",
    "C27_with_optional_content",
    "C27_stale_content_refuted"
   ],
   "note": ""
  },
  {
   "property": "C28",
   "status": "proved",
   "theorems": [
    "C28_ranking_exact"
   ],
   "note": ""
  },
  {
   "property": "C29",
   "status": "proved",
   "theorems": [
    "C29_paging_is_slicing",
    "C29_pages_tile"
   ],
   "note": ""
  },
  {
   "property": "C30",
   "status": "proved",
   "theorems": [
    "C30_engine_paging_crashes",
    "C30_ranker_paging_crashes"
   ],
   "note": ""
  },
  {
   "property": "C31",
   "status": "proved",
   "theorems": [
    "C31_strict_weak_order",
    "C31_nan_breaks_the_order"
   ],
   "note": ""
  },
  {
   "property": "C32",
   "status": "proved",
   "theorems": [
    "C32_sharded_search"
   ],
   "note": ""
  },
  {
   "property": "C33",
   "status": "proved",
   "theorems": [
    "C33_ranked_total",
    "C33_count_only_total",
    "C33_orderless_returns_all"
   ],
   "note": ""
  },
  {
   "property": "C34",
   "status": "proved",
   "theorems": [
    "C34_timeout_loses_whole_shards",
    "C34_answers_never_block"
   ],
   "note": ""
  },
  {
   "property": "C35",
   "status": "proved",
   "theorems": [
    "C35_shard_in_range"
   ],
   "note": ""
  },
  {
   "property": "C36",
   "status": "proved",
   "theorems": [
    "C36_each_shard_keeps_its_last_version",
    "C36_old_version_stays",
    "C36_same_shard_is_replaced"
   ],
   "note": ""
  },
  {
   "property": "C37",
   "status": "proved",
   "theorems": [
    "C37_remove_reaches_every_shard"
   ],
   "note": ""
  },
  {
   "property": "C38",
   "status": "proved",
   "theorems": [
    "C38_counters_account_for_requests",
    "C38_equal_counters_mean_drained",
    "C38_equal_counters_mean_no_removals"
   ],
   "note": ""
  },
  {
   "property": "C39",
   "status": "proved",
   "theorems": [
    "C39_flushed_writes_are_visible",
    "C39_no_indexer_panics"
   ],
   "note": "Pipeline model in which each indexer call is one step. C104 proves the same with the calls at the level of their locks if every phase has only additions or only removals; C41-C43, C58-C59, C104_mixed_phase_refuted and C105_mixed_phase_refuted show what mixed phases can do."
  },
  {
   "property": "C40",
   "status": "proved",
   "theorems": [
    "C40_flush_ignores_rankers",
    "C40_late_removal_wins",
    "C40_rankers_catch_up"
   ],
   "note": ""
  },
  {
   "property": "C41",
   "status": "proved",
   "theorems": [
    "C41_deadlock_reachable",
    "C41_deadlock_is_final",
    "C41_only_deadlock",
    "C41_no_removals_no_deadlock",
    "C41_new_documents_no_deadlock",
    "C41_executions_end"
   ],
   "note": ""
  },
  {
   "property": "C42",
   "status": "proved",
   "theorems": [
    "C42_ghost_reachable",
    "C42_ghost_is_permanent",
    "C42_ghosts_stay"
   ],
   "note": ""
  },
  {
   "property": "C43",
   "status": "proved",
   "theorems": [
    "C43_removal_lost"
   ],
   "note": ""
  },
  {
   "property": "C44",
   "status": "proved",
   "theorems": [
    "C44_HasDoc_asks_the_shards"
   ],
   "note": ""
  },
  {
   "property": "C45",
   "status": "proved",
   "theorems": [
    "C45_get_after_set",
    "C45_refused_set_changes_nothing",
    "C45_get_after_delete",
    "C45_has",
    "C45_foreach_visits_all",
    "C45_foreach_stops_at_an_error",
    "C45_recovery_is_exact",
    "C45_every_key_stays_in_its_shard",
    "C45_all_ids",
    "C45_all_docs",
    "C45_open_store"
   ],
   "note": ""
  },
  {
   "property": "C46",
   "status": "proved",
   "theorems": [
    "C46_outcomes",
    "C46_every_removal_can_win",
    "C46_removed_document_comes_back",
    "C46_flush_does_not_wait_for_removals",
    "C46_removal_after_flush_is_final",
    "C46_ordered_requests_give_the_map"
   ],
   "note": ""
  },
  {
   "property": "C47",
   "status": "proved",
   "theorems": [
    "C47_stop_words_never_indexed",
    "C47_stop_words_never_searched",
    "C47_only_stop_words_are_dropped",
    "C47_no_stop_words_without_segmenter"
   ],
   "note": "Holds in segmenter mode. Without the segmenter the stop word list is never loaded, so the claim is false there (C47_no_stop_words_without_segmenter, C47_case)."
  },
  {
   "property": "C48",
   "status": "proved",
   "theorems": [
    "C48_user_tokens_are_keywords",
    "C48_user_token_locations",
    "C48_mode_1_ignores_user_tokens",
    "C48_labels_only_add",
    "C48_token_length",
    "C48_entry_well_formed",
    "C48_pinyin_overwrites_locations"
   ],
   "note": "True except in mode 1 with text (user tokens ignored, C48_mode_1_ignores_user_tokens) and, for locations, with the pinyin option (C48_pinyin_overwrites_locations)."
  },
  {
   "property": "C49",
   "status": "proved",
   "theorems": [
    "C49_query_is_split_into_words",
    "C49_words_exist_and_are_unique",
    "C49_empty_word_iff_stray_space",
    "C49_stray_space_finds_nothing"
   ],
   "note": ""
  },
  {
   "property": "C50",
   "status": "proved",
   "theorems": [
    "C50_split_is_exact",
    "C50_split_crashes_iff",
    "C50_every_word_is_indexed",
    "C50_text_document"
   ],
   "note": ""
  },
  {
   "property": "C51",
   "status": "proved",
   "theorems": [
    "C51_asc",
    "C51_desc",
    "C51_stable_asc",
    "C51_stable_desc",
    "C51_is_sorted_asc",
    "C51_is_sorted_desc",
    "C51_stable_agrees",
    "C51_desc_is_reverse"
   ],
   "note": ""
  },
  {
   "property": "C52",
   "status": "proved",
   "theorems": [
    "C52_fields",
    "C52_total",
    "C52_objects",
    "C52_nothing_nil",
    "C52_idempotent",
    "C52_later_engines",
    "C52_defaults_are_shared",
    "C52_indexer_options",
    "C52_search_options"
   ],
   "note": ""
  },
  {
   "property": "C53",
   "status": "proved",
   "theorems": [
    "C53_merge",
    "C53_limit_is_met_refuted",
    "C53_one_host",
    "C53_first_request_crashes",
    "C53_later_requests",
    "C53_offset_is_per_host",
    "C53_pages_reach_everything_refuted"
   ],
   "note": ""
  },
  {
   "property": "C54",
   "status": "proved",
   "theorems": [
    "C54_monitor_counts_all_failures",
    "C54_restart_without_consecutive_failures",
    "C54_check_restarts_iff",
    "C54_monitors_share_counter_refuted"
   ],
   "note": ""
  },
  {
   "property": "C55",
   "status": "proved",
   "theorems": [
    "C55_units",
    "C55_used_wraps"
   ],
   "note": ""
  },
  {
   "property": "C56",
   "status": "proved",
   "theorems": [
    "C56_exists_iff_added",
    "C56_last_info",
    "C56_counter",
    "C56_row_counter_saturates"
   ],
   "note": ""
  },
  {
   "property": "C57",
   "status": "proved",
   "theorems": [
    "C57_flush_returns_early_refuted"
   ],
   "note": ""
  },
  {
   "property": "C58",
   "status": "proved",
   "theorems": [
    "C58_search_misses_updated_document",
    "C58_forced_update_delayed"
   ],
   "note": ""
  },
  {
   "property": "C59",
   "status": "proved",
   "theorems": [
    "C59_duplicate_results"
   ],
   "note": ""
  },
  {
   "property": "C60",
   "status": "proved",
   "theorems": [
    "C60_adder_alone",
    "C60_remover_alone",
    "C60_new_documents"
   ],
   "note": ""
  },
  {
   "property": "C61",
   "status": "proved",
   "theorems": [
    "C61_indexed_text_is_found"
   ],
   "note": ""
  },
  {
   "property": "C62",
   "status": "proved",
   "theorems": [
    "C62_stale_copy_is_recovered_for_ever",
    "C62_two_versions_are_recovered",
    "C62_dropped_shards_are_not_read",
    "C62_hasdocdb_misses_stale_copies"
   ],
   "note": ""
  },
  {
   "property": "C63",
   "status": "proved",
   "theorems": [
    "C63_recovered_documents_are_not_found"
   ],
   "note": ""
  },
  {
   "property": "C64",
   "status": "proved",
   "theorems": [
    "C64_stored_documents_are_shown_after_flush"
   ],
   "note": ""
  },
  {
   "property": "C65",
   "status": "proved",
   "theorems": [
    "C65_hasdoc_kills_shard",
    "C65_hasdoc_is_safe_refuted",
    "C65_append_by_itself",
    "C65_calm_schedules_are_safe"
   ],
   "note": ""
  },
  {
   "property": "C66",
   "status": "proved",
   "theorems": [
    "C66_starts_iff",
    "C66_setup",
    "C66_negative_threads_refuted",
    "C66_second_init_fatal",
    "C66_with_gse",
    "C66_hasdocdb_needs_store",
    "C66_store_files_distinct"
   ],
   "note": ""
  },
  {
   "property": "C67",
   "status": "proved",
   "theorems": [
    "C67_new_panics_iff",
    "C67_new_engine",
    "C67_new_toml",
    "C67_new_no_toml",
    "C67_search_doc_panics"
   ],
   "note": ""
  },
  {
   "property": "C68",
   "status": "proved",
   "theorems": [
    "C68_http_answer",
    "C68_grpc_answer",
    "C68_http_crashes_iff"
   ],
   "note": ""
  },
  {
   "property": "C69",
   "status": "proved",
   "theorems": [
    "C69_one_at_a_time_no_strangers",
    "C69_complete_without_overlap",
    "C69_all_replies_arrive_refuted",
    "C69_answers_are_own_refuted",
    "C69_reset_loses_reply_refuted"
   ],
   "note": ""
  },
  {
   "property": "C70",
   "status": "proved",
   "theorems": [
    "C70_grpc_delete_is_fatal",
    "C70_init_engine",
    "C70_client_drops_id",
    "C70_search_needs_logic",
    "C70_dist_search_needs_expr",
    "C70_dist_search",
    "C70_labels_are_ignored"
   ],
   "note": ""
  },
  {
   "property": "C71",
   "status": "proved",
   "theorems": [
    "C71_worker_dies_iff"
   ],
   "note": ""
  },
  {
   "property": "C72",
   "status": "proved",
   "theorems": [
    "C72_scores_are_numbers",
    "C72_small_indexes",
    "C72_default_search",
    "C72_scores_are_scores_refuted"
   ],
   "note": ""
  },
  {
   "property": "C73",
   "status": "proved",
   "theorems": [
    "C73_everything_returns"
   ],
   "note": ""
  },
  {
   "property": "C74",
   "status": "proved",
   "theorems": [
    "C74_each_request_once"
   ],
   "note": ""
  },
  {
   "property": "C75",
   "status": "proved",
   "theorems": [
    "C75_every_search_returns",
    "C75_searches_survive",
    "C75_every_search_returns_if_calm"
   ],
   "note": "Sequential index calls are steps; writers are arbitrary replacements of shards. A lookup that panics or a fatal paging sum ends the process (C71)."
  },
  {
   "property": "C76",
   "status": "proved",
   "theorems": [
    "C76_as_if_alone",
    "C76_global_page"
   ],
   "note": ""
  },
  {
   "property": "C77",
   "status": "proved",
   "theorems": [
    "C77_answers_from_the_window",
    "C77_unchanged_shard",
    "C77_mixed_versions_refuted"
   ],
   "note": "The positive part is C77_answers_from_the_window and C77_unchanged_shard; atomicity of an answer is refuted by C77_mixed_versions_refuted."
  },
  {
   "property": "C78",
   "status": "proved",
   "theorems": [
    "C78_search_sees_the_writes",
    "C78_searches_see_the_writes",
    "C78_forced_writes_do_not_wait",
    "C78_flushed_writes_do_not_wait",
    "C78_nothing_waits_after_a_last_flush",
    "C78_nothing_waits_after_a_last_flush_with_locks",
    "C78_flushed_writes_do_not_wait_with_locks",
    "C78_searches_see_the_writes_with_locks",
    "C78_forced_writes_do_not_wait_with_locks",
    "C78_search_sees_the_writes_with_locks"
   ],
   "note": "Hypothesis once_each: no id in two calls (otherwise C36, C40, C57 apply). Searches with a deadline: C34; count-only, orderless: C33. The theorems named with_locks do not take a call of an indexer method as one step; there nobody removes documents, or one client keeps removals and additions apart, as in C107."
  },
  {
   "property": "C79",
   "status": "proved",
   "theorems": [
    "C79_search_sees_the_stored_documents_with_locks",
    "C79_search_sees_the_stored_documents",
    "C79_indexed_documents_survive_a_restart"
   ],
   "note": "One client, no removals and writable data in the first run (with removals the files depend on the schedule, see C46). The restart is the modelled one: all restored documents are sent, then Flush; nothing_waits as in C78. The theorem named with_locks does not take a call of an indexer method as one step."
  },
  {
   "property": "C80",
   "status": "proved",
   "theorems": [
    "C80_files_after_close",
    "C80_closed_files_are_final",
    "C80_search_after_close_and_restart",
    "C80_index_after_close_is_stored_refuted",
    "C80_close_beside_a_client_refuted",
    "C80_removal_before_close_refuted"
   ],
   "note": "Positive part: C80_files_after_close, C80_closed_files_are_final, C80_search_after_close_and_restart. The _refuted theorems are witnesses of what Close does not guarantee."
  },
  {
   "property": "C81",
   "status": "proved",
   "theorems": [
    "C81_additions_have_one_order",
    "C81_additions_so_far",
    "C81_search_sees_the_updates",
    "C81_search_sees_forced_updates",
    "C81_old_data_wins_refuted"
   ],
   "note": "Positive part for one segmenter thread; C81_old_data_wins_refuted is the witness against it for two segmenter threads."
  },
  {
   "property": "C82",
   "status": "proved",
   "theorems": [
    "C82_pipeline_view",
    "C82_store_view",
    "C82_requests_are_counted_once",
    "C82_flush_means_indexed_and_stored",
    "C82_restart_changes_no_answer",
    "C82_flushed_removal_is_still_stored"
   ],
   "note": "ModelWhole.v; C82_flushed_removal_is_still_stored is the witness for what Flush does not wait for."
  },
  {
   "property": "C83",
   "status": "proved",
   "theorems": [
    "C83_everything_returns",
    "C83_each_document_is_indexed_once",
    "C83_each_document_is_stored_once"
   ],
   "note": "ModelWhole.v; fairness as in C73, with the oldest pending removal goroutine as one of those that get turns."
  },
  {
   "property": "C84",
   "status": "proved",
   "theorems": [
    "C84_settled_documents_are_found",
    "C84_nothing_disappears",
    "C84_count_never_falls"
   ],
   "note": "The pipeline of C71-C74 writes the shards that the searches of C75-C77 read. Each shard operation (AddDocToCache, Lookup, ...) is atomic, as its lock makes it; C60 shows where Lookup and ranking are not one step, which is why a document counts as there only when index and ranker both have it. Documents with several calls are covered by the first part of answers_during only."
  },
  {
   "property": "C85",
   "status": "proved",
   "theorems": [
    "C85_nothing_is_stored",
    "C85_all_count_as_stored",
    "C85_a_restart_loses_everything"
   ],
   "note": "ModelServer.v on top of ModelWhole.v. Assumed of encoding/gob: an unregistered type in an interface field is an error (gob_rule); of the repository: types.Attri is not registered (attri_unknown, found by reading: gob.Register occurs in tests and examples only)."
  },
  {
   "property": "C86",
   "status": "proved",
   "theorems": [
    "C86_numbers",
    "C86_other_text",
    "C86_deadly_requests",
    "C86_posted_delete_deletes_nothing",
    "C86_url_delete_deletes"
   ],
   "note": "Requests are decoded parameters (URL and form body). The deletion theorems are about one client whose two calls are both carried out."
  },
  {
   "property": "C87",
   "status": "proved",
   "theorems": [
    "C87_documents_wait",
    "C87_updates_fill_the_cache",
    "C87_one_form_kills_the_server"
   ],
   "note": "The crash theorem is about the calls reaching the indexer of the shard; by C37 the same form always goes to the same shard."
  },
  {
   "property": "C88",
   "status": "proved",
   "theorems": [
    "C88_init_ends",
    "C88_init_hands_over_every_document",
    "C88_flush_in_a_session",
    "C88_every_call_returns"
   ],
   "note": "ModelSession.v. Init starts no client before it is over, so a session is the pipeline of the recovery followed by the engine with storage."
  },
  {
   "property": "C89",
   "status": "proved",
   "theorems": [
    "C89_files_hold_all_sessions",
    "C89_search_finds_all_sessions"
   ],
   "note": "C89 excludes removals because of C90."
  },
  {
   "property": "C90",
   "status": "proved",
   "theorems": [
    "C90_removals_are_lost_in_the_index"
   ],
   "note": "A finding: the engine does not do what RemoveDoc says. C90_case shows the search without ranking."
  },
  {
   "property": "C91",
   "status": "proved",
   "theorems": [
    "C91_counters_never_exceed_the_calls",
    "C91_counters_count_calls"
   ],
   "note": "numTokenIndexAdded is taken to grow in the same step as the call of AddDocToCache."
  },
  {
   "property": "C92",
   "status": "proved",
   "theorems": [
    "C92_documents_of_files_and_calls_are_found",
    "C92_nothing_disappears",
    "C92_count_never_falls"
   ],
   "note": "As C84, for the sessions of C88. A document counts as there when index and ranker of a shard both have it; before the first Flush of a session, recovered documents may still wait in the caches (C90). Ids with several versions are covered by the first part of answers_meanwhile only."
  },
  {
   "property": "C93",
   "status": "proved",
   "theorems": [
    "C93_no_shard_panics",
    "C93_no_search_panics",
    "C93_every_search_returns"
   ],
   "note": "Panics are None in the models of the indexer, ranker and lookup; a panic of a search goroutine sets fCrash. Ids indexed again (C12, C86) and requests that are not harmless (C16, C25) can end the process. Panics inside user-supplied scoring functions are outside the model."
  },
  {
   "property": "C94",
   "status": "proved",
   "theorems": [
    "C94_answers_in_time",
    "C94_complete_answers_keep_all",
    "C94_counts_and_lists",
    "C94_count_never_falls"
   ],
   "note": "The deadline may pass in any round of the loop of TimeOut. Which shards were heard from is read off the run (heardOf). For ids with several calls the first parts of answers_heard and lists_heard apply only."
  },
  {
   "property": "C95",
   "status": "proved",
   "theorems": [
    "C95_answers_in_time",
    "C95_complete_answers_keep_all",
    "C95_counts_and_lists",
    "C95_count_never_falls"
   ],
   "note": "As C94, for the sessions of C92."
  },
  {
   "property": "C96",
   "status": "proved",
   "theorems": [
    "C96_logic_searches_see_the_writes_with_locks",
    "C96_logic_search_sees_the_writes_with_locks",
    "C96_logic_search_sees_the_writes",
    "C96_logic_searches_see_the_writes"
   ],
   "note": "As C78, for open_request. NOT-only expressions are finding C23 (they are answered with the documents that carry the words), a MUST part without any word can panic (C25). C94 and C95 cover the same requests beside running writes (C94_logic_case). The theorems named with_locks do not take a call of an indexer method as one step; there nobody removes documents, or one client keeps removals and additions apart, as in C107."
  },
  {
   "property": "C97",
   "status": "proved",
   "theorems": [
    "C97_search_sees_the_revisions_with_locks",
    "C97_searches_see_the_revisions_with_locks",
    "C97_search_sees_the_revisions",
    "C97_searches_see_the_revisions"
   ],
   "note": "C81 says more (the data of the very last call) for one segmenter; C81_old_data_wins_refuted shows why this cannot be said for two. A document that was removed and indexed again can be missing for ever: C40_late_removal_wins. The theorems named with_locks do not take a call of an indexer method as one step; there a phase has additions or removals, not both, as in C107."
  },
  {
   "property": "C98",
   "status": "proved",
   "theorems": [
    "C98_search_in_a_session_sees_the_revisions",
    "C98_searches_in_a_session_see_the_revisions"
   ],
   "note": "The condition fresh_ids on the first phase is needed: removals before the first Flush are lost in the index (C90)."
  },
  {
   "property": "C99",
   "status": "proved",
   "theorems": [
    "C99_search_ignores_reserved_with_locks",
    "C99_searches_ignore_reserved_with_locks",
    "C99_search_ignores_reserved",
    "C99_searches_ignore_reserved",
    "C99_flush_with_reserved",
    "C99_nothing_waits_with_reserved"
   ],
   "note": "C15 says that no document \"0\" is ever in an index; C99 adds that all other documents are found as without it. The example program examples/weibo loses its first line this way. The theorems named with_locks do not take a call of an indexer method as one step; there nobody removes documents, or one client keeps removals and additions apart."
  },
  {
   "property": "C100",
   "status": "proved",
   "theorems": [
    "C100_scores_of_searches_with_locks",
    "C100_default_search_with_locks",
    "C100_default_searches_with_locks",
    "C100_scores_of_a_search_with_locks",
    "C100_scores_of_a_search",
    "C100_scores_of_searches",
    "C100_lengths_add_up",
    "C100_default_search",
    "C100_default_searches",
    "C100_order_without_shards_refuted"
   ],
   "note": "C100_order_without_shards_refuted: the order of the answer is not independent of the number of shards, as BM25 is computed per shard. The whole-number lengths below 2^24 are needed for the total (C20) and for scores that are numbers (C72). The theorems named with_locks do not take a call of an indexer method as one step; there nobody removes documents, or one client keeps removals and additions apart, as in C107."
  },
  {
   "property": "C101",
   "status": "proved",
   "theorems": [
    "C101_default_is_sane",
    "C101_scores_are_numbers",
    "C101_scores_are_numbers_meanwhile",
    "C101_scores_are_numbers_in_a_session",
    "C101_scores_are_numbers_meanwhile_in_a_session",
    "C101_segmented_documents_are_usual",
    "C101_default_search_after_updates",
    "C101_default_search_meanwhile"
   ],
   "note": ""
  },
  {
   "property": "C102",
   "status": "proved",
   "theorems": [
    "C102_fields_of_a_line",
    "C102_scans_the_lines",
    "C102_reads_the_lines",
    "C102_order",
    "C102_prints_the_matches",
    "C102_prints_only_matches_at_any_time",
    "C102_first_weibo_printed_refuted",
    "C102_complete_after_flush_refuted",
    "C102_reads_every_weibo_refuted",
    "C102_order_of_large_numbers_refuted"
   ],
   "note": "Refuted: the first weibo of the file is printed (id 0), the output is complete right after Flush, every weibo line is read (a line of 65536 bytes ends the reading), the order is kept for reposts from 2^24 on."
  },
  {
   "property": "C103",
   "status": "proved",
   "theorems": [
    "C103_table",
    "C103_scores_are_numbers",
    "C103_adjacent_first",
    "C103_replies_with_the_matches",
    "C103_replies_only_matches_at_any_time",
    "C103_closer_first_refuted",
    "C103_pinyin_documents",
    "C103_pinyin_own_tokens_refuted"
   ],
   "note": "Refuted: closer words always rank first (quotients are rounded), the pinyin documents of a line carry only its own tokens. The concurrent access of codelab to its map is a data race and not modelled: the table is complete when a reply is made."
  },
  {
   "property": "C104",
   "status": "proved",
   "theorems": [
    "C104_one_worker_at_a_time",
    "C104_index_is_the_sequential_one",
    "C104_pipeline_unchanged",
    "C104_shards_of_the_engine",
    "C104_flushed_writes_are_visible",
    "C104_no_worker_panics",
    "C104_mixed_phase_refuted"
   ],
   "note": "C60 for the whole pipeline. C104_mixed_phase_refuted: without the separation a flushed removal can be lost."
  },
  {
   "property": "C105",
   "status": "proved",
   "theorems": [
    "C105_everything_returns",
    "C105_phases_return",
    "C105_rest_is_final",
    "C105_lock_cycle_blocks_flush",
    "C105_mixed_phase_refuted"
   ],
   "note": "C73 with the locks in view. \"Nobody panics\" is needed only for searches when one client keeps additions and removals apart (C105_phases_return). C105_mixed_phase_refuted: without the separation Flush can be blocked for ever. C106_everything_returns removes the assumption about the searches."
  },
  {
   "property": "C106",
   "status": "proved",
   "theorems": [
    "C106_index_at_any_moment",
    "C106_search_at_any_moment",
    "C106_answers_are_of_a_moment",
    "C106_no_search_panics",
    "C106_nothing_disappears",
    "C106_everything_returns"
   ],
   "note": "Logic expressions: only the absence of panics is stated here (C20 to C25 describe their answers over states between calls). C106_case is a moment at which an updated document cannot be found (C58)."
  },
  {
   "property": "C107",
   "status": "proved",
   "theorems": [
    "C107_settled_documents_are_found",
    "C107_nothing_disappears",
    "C107_answers_in_time",
    "C107_counts_and_lists",
    "C107_count_never_falls"
   ],
   "note": "C84 and C94 with the locks of the indexers in view. The rankers change in one step per call (one lock around the whole method). One proof serves both levels (ProofMoments.v)."
  },
  {
   "property": "C108",
   "status": "proved",
   "theorems": [
    "C108_heartbeat",
    "C108_token",
    "C108_document",
    "C108_delete",
    "C108_reply",
    "C108_expression",
    "C108_logic",
    "C108_attributes",
    "C108_text",
    "C108_answer",
    "C108_search",
    "C108_any_heartbeat",
    "C108_any_token",
    "C108_any_document",
    "C108_any_delete",
    "C108_any_reply",
    "C108_any_expression",
    "C108_any_logic",
    "C108_any_attributes",
    "C108_any_text",
    "C108_any_answer",
    "C108_any_search"
   ],
   "note": "all eleven messages of doc.pb.go; the encoding prescribed is the small specification SpecWire.v (varints in groups of seven bits, records of number and kind, known fields in order, then the unknown ones); C108_any_* are about every encoding related to a message by the reading relation of SpecWire.v"
  },
  {
   "property": "C109",
   "status": "proved",
   "theorems": [
    "C109_decoding_ends",
    "C109_calm_input_is_safe",
    "C109_no_panic_refuted"
   ],
   "note": "the absence of panics holds for inputs without four bytes 255 in a row (and shorter than 2^27 bytes, the limit of the transport being 4 MB); without this it is refuted by witnesses of 10 and 12 bytes"
  },
  {
   "property": "C110",
   "status": "proved",
   "theorems": [
    "C110_document_arrives",
    "C110_attributes_can_be_sent",
    "C110_bad_attributes_are_not_refused",
    "C110_search_arrives",
    "C110_answer_arrives",
    "C110_delete_arrives",
    "C110_heartbeat_is_echoed",
    "C110_server_survives_refuted",
    "C110_calm_requests_are_survived"
   ],
   "note": "handlers and clients of net/grpc on the real encoding; the transport of google.golang.org/grpc is assumed to deliver the bytes unchanged and not to recover from panics; survival of the server is refuted by witnesses"
  },
  {
   "property": "C111",
   "status": "proved",
   "theorems": [
    "C111_steps_write_what_they_touch",
    "C111_steps_read_what_they_touch",
    "C111_races_only_for_removal_cells",
    "C111_others_do_not_interfere",
    "C111_races_in_the_engine",
    "C111_no_race_when_kept_apart",
    "C111_removal_cells_are_raced_for",
    "C111_has_doc_races",
    "C111_two_adders_race"
   ],
   "note": "race freedom of the lock-level model with a checked table of accesses; the races that exist are given as witnesses (removal cells, HasDoc, two adders)"
  },
  {
   "property": "C112",
   "status": "proved",
   "theorems": [
    "C112_deadline",
    "C112_large_timeouts_end_early",
    "C112_marked_iff_incomplete",
    "C112_not_before_the_deadline",
    "C112_first_replies_are_taken",
    "C112_ends_by_the_deadline",
    "C112_replies_in_time_are_taken",
    "C112_in_time_as_without_timeout",
    "C112_largest_timeout_refuted",
    "C112_sending_is_not_timed_refuted"
   ],
   "note": "TimeOut with explicit times; time.Time arithmetic is assumed not to overflow; the two negative statements are refutation witnesses"
  },
  {
   "property": "C113",
   "status": "proved",
   "theorems": [
    "C113_writes_are_serial",
    "C113_calls_of_a_goroutine",
    "C113_no_race",
    "C113_documents_are_read_whole",
    "C113_entries_are_not_torn",
    "C113_undisturbed",
    "C113_executions_are_bounded",
    "C113_no_deadlock",
    "C113_no_panic",
    "C113_answers_of_one_moment_refuted"
   ],
   "note": "the RWMutex without preference for waiting writers; Score is a function of the document and the fields; the last statement is a refutation witness"
  },
  {
   "property": "C114",
   "status": "proved",
   "theorems": [
    "C114_value_is_bm25",
    "C114_lookup_is_bm25",
    "C114_search_ranks_by_bm25",
    "C114_searches_rank_by_bm25",
    "C114_strict_order_refuted",
    "C114_searches_rank_by_bm25_with_locks",
    "C114_search_ranks_by_bm25_with_locks"
   ],
   "note": "axioms of the standard library's real numbers (listed in DESIGN.md section 4); math.Log2 assumed accurate to 2^-40 relative from 2 on; the last statement is a refutation witness The theorems named with_locks do not take a call of an indexer method as one step; there nobody removes documents, or one client keeps removals and additions apart, as in C107."
  },
  {
   "property": "C115",
   "status": "proved",
   "theorems": [
    "C115_searches_put_shorter_first_with_locks",
    "C115_search_puts_shorter_first_with_locks",
    "C115_more_occurrences",
    "C115_rarer_words",
    "C115_shorter_documents",
    "C115_longer_is_never_better",
    "C115_more_occurrences_rounded",
    "C115_rarer_words_rounded",
    "C115_scores_are_positive",
    "C115_one_more_occurrence_refuted",
    "C115_search_puts_shorter_first",
    "C115_searches_put_shorter_first"
   ],
   "note": "axioms of the standard library's real numbers; the last statement is a refutation witness The theorems named with_locks do not take a call of an indexer method as one step; there nobody removes documents, or one client keeps removals and additions apart, as in C107."
  },
  {
   "property": "C116",
   "status": "proved",
   "theorems": [
    "C116_try",
    "C116_try_stops_panics",
    "C116_try_nested",
    "C116_try_always_handles_refuted",
    "C116_last_registration_wins",
    "C116_nil_registration_panics",
    "C116_others_open_as_before",
    "C116_package_stores",
    "C116_empty_name_is_never_asked_for"
   ],
   "note": "panic(nil) as in the Go version of go.mod (1.13); runtime.Goexit is one of the endings; one statement is a refutation witness"
  },
  {
   "property": "C117",
   "status": "proved",
   "theorems": [
    "C117_scores_with_locks",
    "C117_scores_after_revisions",
    "C117_scores_of_searches_after_revisions",
    "C117_lengths_add_up_after_revisions",
    "C117_usual_scores_after_revisions",
    "C117_usual_scores_of_searches_after_revisions",
    "C117_scores_in_a_session",
    "C117_usual_scores_in_a_session",
    "C117_scores_of_searches_in_a_session"
   ],
   "note": "Extends C100 (no updates) and C97 (which documents, without scores). The fields given to the scoring function may be those of an older version when there are several segmenters (C81_old_data_wins_refuted)."
  },
  {
   "property": "C118",
   "status": "proved",
   "theorems": [
    "C118_order_with_locks",
    "C118_order_after_revisions",
    "C118_order_of_searches_after_revisions",
    "C118_order_in_a_session",
    "C118_order_of_searches_in_a_session"
   ],
   "note": "C114 and C115 for histories with updates and removals. Rests on the axioms of the real numbers of the standard library (DESIGN.md, section 4)."
  },
  {
   "property": "C119",
   "status": "proved",
   "theorems": [
    "C119_scores_with_locks",
    "C119_usual_scores_with_locks",
    "C119_scores_while_adding",
    "C119_usual_scores_while_adding",
    "C119_counted_documents_stay",
    "C119_counted_documents_stay_with_locks"
   ],
   "note": "C84 and C94 say which documents such an answer has; this adds their scores. The programs only add (one call per id), because a removal that is still pending keeps its rows while the count of documents has already dropped, so there no set of documents describes all fields at once. The theorems named with_locks do not take a call of an indexer method as one step: a search may see the shard in the middle of it; there programs keep removals and additions apart, as in C107."
  },
  {
   "property": "C120",
   "status": "proved",
   "theorems": [
    "C120_scores_beside_a_session",
    "C120_usual_scores_beside_a_session",
    "C120_counted_documents_stay"
   ],
   "note": "C92 and C95 say which documents such an answer has; this adds their scores, as C119 does without files. The calls may remove ids that nobody indexes, and have ids that are neither in the files nor in another call."
  },
  {
   "property": "C121",
   "status": "proved",
   "theorems": [
    "C121_order_while_adding",
    "C121_order_with_locks"
   ],
   "note": "C114 and C115 at any moment of an execution that only adds documents (C119 says which fields the scores are computed from). Rests on the axioms of the real numbers of the standard library (DESIGN.md, section 4)."
  },
  {
   "property": "C122",
   "status": "proved",
   "theorems": [
    "C122_order_beside_a_session"
   ],
   "note": "C121 beside a session on existing files (C120 says which fields the scores are computed from). Rests on the axioms of the real numbers of the standard library (DESIGN.md, section 4)."
  }
 ]
}