{
 "claims": [
  {
   "property": "C01",
   "status": "proved",
   "theorems": [
    "C01_price_is_least_cover",
    "C01_price_total_nonneg",
    "C01_zero_pass_value_is_an_error"
   ],
   "note": ""
  },
  {
   "property": "C02",
   "status": "proved",
   "theorems": [
    "C02_price_order_independent",
    "C02_price_additive",
    "C02_price_monotone",
    "C02_price_antitone_in_pass_value"
   ],
   "note": ""
  },
  {
   "property": "C03",
   "status": "proved",
   "theorems": [
    "C03_mutable_write_charges_growth",
    "C03_cdiv_is_least_cover",
    "C03_written_exists",
    "C03_mutable_price_nonneg"
   ],
   "note": ""
  },
  {
   "property": "C04",
   "status": "proved",
   "theorems": [
    "C04_write_charges_telescope"
   ],
   "note": ""
  },
  {
   "property": "C05",
   "status": "proved",
   "theorems": [
    "C05_calculator_matches_upload_cost",
    "C05_zero_needed_is_an_error"
   ],
   "note": ""
  },
  {
   "property": "C06",
   "status": "proved",
   "theorems": [
    "C06_client_price_is_server_price",
    "C06_reads_are_free",
    "C06_client_lease_price_is_server_price"
   ],
   "note": ""
  },
  {
   "property": "C07",
   "status": "partial",
   "theorems": [
    "C07_no_effect_without_passes",
    "C07_no_effect_without_passes_any_state",
    "C07_lease_on_mixed_directory_refuted"
   ],
   "note": "proved for every server whose storage indexes are each used for one kind of container; refuted for adding a lease to a directory holding both kinds"
  },
  {
   "property": "C08",
   "status": "proved",
   "theorems": [
    "C08_refusal_reports_the_truth",
    "C08_other_refusals"
   ],
   "note": ""
  },
  {
   "property": "C09",
   "status": "proved",
   "theorems": [
    "C09_allocation_charges_created_buckets",
    "C09_none_recorded_twice"
   ],
   "note": ""
  },
  {
   "property": "C10",
   "status": "proved",
   "theorems": [
    "C10_record_is_verified_passes",
    "C10_every_recorded_pass_was_presented"
   ],
   "note": ""
  },
  {
   "property": "C11",
   "status": "proved",
   "theorems": [
    "C11_written_shares_have_an_active_lease",
    "C11_leases_never_shortened"
   ],
   "note": ""
  },
  {
   "property": "C12",
   "status": "partial",
   "theorems": [
    "C12_reviving_costs_the_whole_share_refuted",
    "C12_reviving_costs_the_whole_share_partial"
   ],
   "note": "refuted with a witness; proved for the bytes up to the end of the write"
  },
  {
   "property": "C13",
   "status": "partial",
   "theorems": [
    "C13_immutable_size",
    "C13_mutable_size",
    "C13_unknown_version_refused",
    "C13_unknown_version_refused_refuted"
   ],
   "note": "sizes proved for both containers and all versions; unknown versions refused only for the first container of a directory (refuted for the others)"
  },
  {
   "property": "C14",
   "status": "partial",
   "theorems": [
    "C14_share_sizes_exact",
    "C14_stat_shares_exact",
    "C14_only_numeric_entries",
    "C14_each_share_once_refuted"
   ],
   "note": "each share once refuted for directories with two names for one number; all else proved"
  },
  {
   "property": "C15",
   "status": "proved",
   "theorems": [
    "C15_extraction_exact_or_nothing",
    "C15_succeeds_iff_reported_count",
    "C15_reported_count_is_spendable_tokens",
    "C15_negative_count_takes_everything"
   ],
   "note": "a negative count takes every token (finding, proved separately)"
  },
  {
   "property": "C16",
   "status": "proved",
   "theorems": [
    "C16_no_double_handout"
   ],
   "note": ""
  },
  {
   "property": "C17",
   "status": "proved",
   "theorems": [
    "C17_ledger",
    "C17_exactly_one_class",
    "C17_reissued_invalid_token_is_in_two_classes"
   ],
   "note": "for histories in which no token declared invalid is received again; otherwise a token can be in two classes (finding, proved separately)"
  },
  {
   "property": "C18",
   "status": "proved",
   "theorems": [
    "C18_spent_and_invalid_never_come_back"
   ],
   "note": ""
  },
  {
   "property": "C19",
   "status": "proved",
   "theorems": [
    "C19_failed_call_changes_nothing",
    "C19_crash_leaves_previous_state",
    "C19_statement_execution_outcome",
    "C19_statement_execution_completes"
   ],
   "note": ""
  },
  {
   "property": "C20",
   "status": "proved",
   "theorems": [
    "C20_restart_releases_in_use"
   ],
   "note": ""
  },
  {
   "property": "C21",
   "status": "proved",
   "theorems": [
    "C21_every_token_accounted",
    "C21_failed_calls_leave_no_trace",
    "C21_failed_allocations_leave_no_trace",
    "C21_every_token_accounted_allocate",
    "C21_nothing_else_changes",
    "C21_nothing_else_changes_allocate",
    "C21_unconvertible_tokens_stay_in_use"
   ],
   "note": "an unconvertible token leaks the extracted tokens (finding, proved separately)"
  },
  {
   "property": "C22",
   "status": "proved",
   "theorems": [
    "C22_exactly_the_accepted_passes_are_spent",
    "C22_allocate_spends_for_new_buckets_only"
   ],
   "note": ""
  },
  {
   "property": "C23",
   "status": "proved",
   "theorems": [
    "C23_invalid_iff_rejected",
    "C23_invalid_iff_rejected_allocate"
   ],
   "note": ""
  },
  {
   "property": "C24",
   "status": "partial",
   "theorems": [
    "C24_retry_loop_terminates_refuted",
    "C24_retry_loop_terminates_partial",
    "C24_retry_loop_terminates_shared_partial"
   ],
   "note": "refuted: a refusal naming only indices that were not presented makes the client present the same passes forever; proved for refusals naming at least one presented pass"
  },
  {
   "property": "C25",
   "status": "proved",
   "theorems": [
    "C25_every_attempt_presents_the_right_passes",
    "C25_every_allocate_attempt_presents_the_right_passes"
   ],
   "note": ""
  },
  {
   "property": "C26",
   "status": "proved",
   "theorems": [
    "C26_allocate_agrees",
    "C26_add_lease_agrees",
    "C26_writev_agrees"
   ],
   "note": "the client's preimages are assumed pairwise different on the tokens taken"
  },
  {
   "property": "C27",
   "status": "proved",
   "theorems": [
    "C27_messages_never_collide",
    "C27_different_requests_different_messages"
   ],
   "note": ""
  },
  {
   "property": "C28",
   "status": "proved",
   "theorems": [
    "C28_group_sizes_add_up",
    "C28_larger_groups_first",
    "C28_impossible_arguments_are_refused",
    "C28_requests_have_the_size_of_the_group"
   ],
   "note": "Group sizes, refusals, and the size of every request in every history."
  },
  {
   "property": "C29",
   "status": "partial",
   "theorems": [
    "C29_counts_are_what_was_received",
    "C29_redeemed_count",
    "C29_received_tokens_are_stored",
    "C29_each_group_at_most_once_refuted",
    "C29_total_refuted",
    "C29_each_group_once_partial",
    "C29_total_partial"
   ],
   "note": "Counts, stored tokens and the reported count hold in every history. 'Each group once' and 'total as expected' are refuted (a voucher once answered 'not paid for' is started over at group 0) and proved for vouchers never answered that way."
  },
  {
   "property": "C30",
   "status": "partial",
   "theorems": [
    "C30_retries_send_the_same_tokens",
    "C30_requested_tokens_are_kept",
    "C30_until_that_group_succeeds_refuted",
    "C30_until_that_group_succeeds_partial"
   ],
   "note": "Same tokens between any two requests with nothing received between them, in every history. Until that very group succeeds: refuted (same cause as C29), proved for vouchers never answered 'not paid for'."
  },
  {
   "property": "C31",
   "status": "proved",
   "theorems": [
    "C31_sequestered_never_spent",
    "C31_unrecognised_keys"
   ],
   "note": ""
  },
  {
   "property": "C32",
   "status": "proved",
   "theorems": [
    "C32_one_event_moves_forward",
    "C32_vouchers_begin_pending",
    "C32_progress_never_lost"
   ],
   "note": "One event and whole histories; new vouchers begin pending."
  },
  {
   "property": "C33",
   "status": "proved",
   "theorems": [
    "C33_known_voucher_is_kept",
    "C33_store_add_known_voucher",
    "C33_random_tokens_are_counted"
   ],
   "note": "Controller event and store call."
  },
  {
   "property": "C34",
   "status": "proved",
   "theorems": [
    "C34_one_open_request_per_voucher"
   ],
   "note": "Open requests are read off events and outputs."
  },
  {
   "property": "C35",
   "status": "partial",
   "theorems": [
    "C35_retry_starts_at_the_first_missing_group_refuted",
    "C35_retry_starts_at_the_first_missing_group_partial",
    "C35_requests_in_order_partial"
   ],
   "note": "Refuted: a voucher once reported unpaid is retried from group 0 after later groups succeeded. Proved for first groups, vouchers never answered 'not paid for', and fresh processes."
  },
  {
   "property": "C36",
   "status": "partial",
   "theorems": [
    "C36_every_failed_voucher_is_retried_refuted",
    "C36_unpaid_voucher_is_retried_partial",
    "C36_timer_keeps_running_partial"
   ],
   "note": "Refuted: after an error the retry raises ValueError on every firing. Proved for 'not paid for'."
  },
  {
   "property": "C37",
   "status": "partial",
   "theorems": [
    "C37_exactly_the_pending_vouchers_refuted",
    "C37_exactly_the_pending_vouchers_partial",
    "C37_exactly_the_pending_vouchers_when_paid_partial"
   ],
   "note": "Refuted for a counter that has reached the number of groups. Proved: exactly the pending vouchers with groups to go; all pending ones when always paid for."
  },
  {
   "property": "C38",
   "status": "proved",
   "theorems": [
    "C38_reported_state",
    "C38_always_reported",
    "C38_redeeming_iff_open",
    "C38_finished_is_shown_finished"
   ],
   "note": "Exactly one state, the one of the independent relation."
  },
  {
   "property": "C39",
   "status": "partial",
   "theorems": [
    "C39_recovery_reproduces_partial",
    "C39_exact_recovery_partial",
    "C39_wallet_recovery_partial",
    "C39_wallet_is_the_store",
    "C39_recovery_reproduces_refuted"
   ],
   "note": "Holds for every history without rollbacks, failures and kills, except for writes during the upload of a snapshot begun before the first recorded change; that case is refuted by a concrete wallet history. Statements replayed as on a plain SQLite cursor; for the node's own connection see C76."
  },
  {
   "property": "C40",
   "status": "partial",
   "theorems": [
    "C40_rolled_back_changes_refuted",
    "C40_only_committed_changes_partial"
   ],
   "note": "Refuted: statements of a rolled back transaction are recorded at the next commit. Proved: without rolled back writes exactly the committed statements are recorded."
  },
  {
   "property": "C41",
   "status": "partial",
   "theorems": [
    "C41_interruptions_refuted",
    "C41_harmless_interruptions_partial",
    "C41_harmless_interruptions_any_partial",
    "C41_snapshot_heals_partial"
   ],
   "note": "Refuted by four concrete histories (kill after an unacknowledged upload, kill before remote pruning, kill between commit and recording, restart with a token in use). Proved: harmless interruptions, and that a snapshot repairs the replica."
  },
  {
   "property": "C42",
   "status": "partial",
   "theorems": [
    "C42_upload_removes_exactly_what_was_uploaded",
    "C42_nothing_else_removes",
    "C42_snapshot_removes_what_it_contains_partial",
    "C42_removed_without_upload_refuted"
   ],
   "note": "Exact for event uploads and for snapshots begun after the first recorded change; refuted for a snapshot begun before it."
  },
  {
   "property": "C43",
   "status": "proved",
   "theorems": [
    "C43_commits_are_recorded",
    "C43_numbers_increase",
    "C43_queries_are_not_recorded",
    "C43_nothing_recorded_before_set_up"
   ],
   "note": "Statements left over by rolled back transactions (C40) are recorded in front of those of the next commit."
  },
  {
   "property": "C44",
   "status": "proved",
   "theorems": [
    "C44_round_trip",
    "C44_encoding_succeeds",
    "C44_arguments_survive_log_and_stream",
    "C44_unknown_versions_are_refused",
    "C44_other_version_numbers_are_refused",
    "C44_only_sql_values_are_accepted",
    "C44_named_after_the_last_change",
    "C44_names_are_different"
   ],
   "note": "Bytes of the stream are computed by an explicit model of the CBOR encoder/decoder (CborModel); real_change describes the changes the node itself makes. Python's == takes True and 1.0 for version 1, stated in C44_unknown_versions_are_refused."
  },
  {
   "property": "C45",
   "status": "proved",
   "theorems": [
    "C45_streams_in_order_and_nothing_else",
    "C45_listing_order_does_not_matter",
    "C45_streams_in_order",
    "C45_any_listing_order"
   ],
   "note": "C45_streams_in_order and C45_any_listing_order are about the replication model; the other two read the files of a directory listing, whatever else it holds."
  },
  {
   "property": "C46",
   "status": "partial",
   "theorems": [
    "C46_refused_if_not_empty",
    "C46_all_or_nothing_partial",
    "C46_failed_import",
    "C46_success_is_reported",
    "C46_failure_leaves_the_wallet_refuted",
    "C46_only_an_empty_wallet_refuted"
   ],
   "note": "Refusal of a non-empty wallet is proved outright; untouched until the import begins, complete on success. Refuted: a failed import is committed in part, and a wallet filled during the download is overwritten."
  },
  {
   "property": "C47",
   "status": "partial",
   "theorems": [
    "C47_stages_move_on_partial",
    "C47_nothing_follows_the_end",
    "C47_one_recovery",
    "C47_every_client_sees_all_stages",
    "C47_late_client_is_disconnected_refuted",
    "C47_one_final_stage_refuted",
    "C47_other_capability_is_refused_refuted"
   ],
   "note": "Order, uniqueness, same stages for every client are proved; refuted: success can be followed by import_failed when a deferred constraint fails at commit, late clients are never disconnected, clients with another capability are not refused but get the updates. 'importing' is never reported."
  },
  {
   "property": "C48",
   "status": "proved",
   "theorems": [
    "C48_no_job_waits_twice",
    "C48_waiting_jobs_are_kept",
    "C48_requests_are_not_lost",
    "C48_work_gets_done"
   ],
   "note": ""
  },
  {
   "property": "C49",
   "status": "proved",
   "theorems": [
    "C49_uploads_are_requested_exactly_when_due",
    "C49_counting_starts_with_the_log"
   ],
   "note": "Statement sizes are an arbitrary function."
  },
  {
   "property": "C50",
   "status": "proved",
   "theorems": [
    "C50_upgraded",
    "C50_created",
    "C50_untouched",
    "C50_once",
    "C50_statements"
   ],
   "note": "From every version 0-9 and every content of the tables; new, up-to-date and future databases."
  },
  {
   "property": "C51",
   "status": "partial",
   "theorems": [
    "C51_kept",
    "C51_spendable_partial",
    "C51_spendable_refuted",
    "C51_groups",
    "C51_spendable_since_6",
    "C51_waiting_readable",
    "C51_finished_readable_refuted",
    "C51_readable_since_8"
   ],
   "note": "Every row is kept with its values. Tokens from before version 6 are spendable exactly if some voucher was redeemed (refuted otherwise); vouchers waiting to be redeemed are readable, redeemed and double-spent ones with local times from before version 8 are not (refuted)."
  },
  {
   "property": "C52",
   "status": "proved",
   "theorems": [
    "C52_renewed_exactly_when_due",
    "C52_nothing_else_even_if_it_fails"
   ],
   "note": "Renewals asked for are exactly those that the servers' answers call for, in a run that does not fail (and never more in one that does). A share without a lease is reported with expiration 0, which is always due."
  },
  {
   "property": "C53",
   "status": "proved",
   "theorems": [
    "C53_leases_never_lapse"
   ],
   "note": "Stated against the storage server model, over any history of successful visits and other requests; the minimum counts from the moment the client asks, the lease period from the renewal, less one second of rounding."
  },
  {
   "property": "C54",
   "status": "partial",
   "theorems": [
    "C54_default_renews_only_the_expired_refuted"
   ],
   "note": "False: the default minimum is zero, so only expired leases are renewed. Refuted with two visits 26 days apart."
  },
  {
   "property": "C55",
   "status": "partial",
   "theorems": [
    "C55_visits_exactly_what_is_reachable",
    "C55_ends_without_cycles_partial",
    "C55_cycle_never_ends_refuted"
   ],
   "note": "What is visited is exactly what is reachable, and the walk ends if no directory contains itself and all can be read; with a cycle it never ends (refuted)."
  },
  {
   "property": "C56",
   "status": "proved",
   "theorems": [
    "C56_every_share_is_recorded",
    "C56_the_end_is_recorded_last",
    "C56_cost_of_every_share",
    "C56_report_is_the_cost_of_what_was_seen"
   ],
   "note": "Row of the run, latest-activity query, and the cost as the sum over every share the servers told of. The query is by finish time, hence the hypothesis that no other run finished later."
  },
  {
   "property": "C57",
   "status": "proved",
   "theorems": [
    "C57_restart",
    "C57_runs_are_apart"
   ],
   "note": "Also across any sequence of restarts: runs are at least the shortest interval apart. Without a last run the first delay is the sampled interval (see C80 for negative ones)."
  },
  {
   "property": "C58",
   "status": "proved",
   "theorems": [
    "C58_pass_round_trip",
    "C58_encoded_pass_round_trip",
    "C58_wrong_structure_refused",
    "C58_decoding_is_faithful",
    "C58_base64_needed"
   ],
   "note": "for base64 parts; C58_base64_needed: the constructor also takes other 88-byte parts, and a pass with a space in one of them does not survive"
  },
  {
   "property": "C59",
   "status": "partial",
   "theorems": [
    "C59_json_roundtrip_partial",
    "C59_json_injective",
    "C59_surrogates_refuted"
   ],
   "note": "Round trip for every voucher with an ASCII number, in every state, down to the bytes of JSON; C59_surrogates_refuted: error details with a surrogate pair written as two characters come back as one."
  },
  {
   "property": "C60",
   "status": "proved",
   "theorems": [
    "C60_only_with_the_secret",
    "C60_one_secret"
   ],
   "note": "For every non-empty secret (the program generates 32 random bytes); C60_empty_secret shows why."
  },
  {
   "property": "C61",
   "status": "partial",
   "theorems": [
    "C61_price_answered",
    "C61_price_end_to_end",
    "C61_others_refused_partial",
    "C61_never_a_crash_refuted"
   ],
   "note": "Exact characterisation of the answer 200 and of all others; C61_never_a_crash_refuted: nesting beyond the recursion limit of Python's JSON reader fails the request instead of a 400."
  },
  {
   "property": "C62",
   "status": "proved",
   "theorems": [
    "C62_only_vouchers",
    "C62_others_refused",
    "C62_end_to_end"
   ],
   "note": "Down to the bytes of the body; base64 and regular expression modelled character by character."
  },
  {
   "property": "C63",
   "status": "partial",
   "theorems": [
    "C63_config_round_trip",
    "C63_defaults",
    "C63_missing_key_is_refused",
    "C63_fractions_are_lost_refuted"
   ],
   "note": "Whole seconds within the range of timedelta round-trip and unset values give the defaults; fractions of a second are lost (refuted)."
  },
  {
   "property": "C64",
   "status": "partial",
   "theorems": [
    "C64_url_scrubbed_partial",
    "C64_repr_scrubbed_partial",
    "C64_str_scrubbed_refuted",
    "C64_prefix_refuted"
   ],
   "note": "proved for the repr and the url attribute of the error when the API is at the root of the node's URL; false for str of the error, which shows the URL as it was, and for an API below the root"
  },
  {
   "property": "C65",
   "status": "partial",
   "theorems": [
    "C65_atomic",
    "C65_outcome",
    "C65_complete_partial",
    "C65_complete_refuted"
   ],
   "note": "the destination is never partial with respect to what arrived, and complete for bodies with a length or chunks; false for bodies ended by the connection"
  },
  {
   "property": "C66",
   "status": "proved",
   "theorems": [
    "C66_retried",
    "C66_endless",
    "C66_policy",
    "C66_policy_servers",
    "C66_upload_sends_all"
   ],
   "note": "retry loop with the matchers as they are; upload sends the provider's data at each attempt"
  },
  {
   "property": "C67",
   "status": "partial",
   "theorems": [
    "C67_a_pass_pays_once_refuted"
   ],
   "note": "refuted: the server never consults its record"
  },
  {
   "property": "C68",
   "status": "partial",
   "theorems": [
    "C68_records_exactly_the_price_refuted",
    "C68_records_exactly_the_price_partial"
   ],
   "note": "refuted in general; see the partial theorem for what holds"
  },
  {
   "property": "C69",
   "status": "proved",
   "theorems": [
    "C69_stored_is_what_was_paid_for",
    "C69_other_slots_untouched",
    "C69_growth_is_paid_for"
   ],
   "note": ""
  },
  {
   "property": "C70",
   "status": "partial",
   "theorems": [
    "C70_errors_change_nothing_refuted",
    "C70_errors_change_nothing_partial"
   ],
   "note": "refuted for errors raised behind the payment check; proved for the plugin's own refusals"
  },
  {
   "property": "C71",
   "status": "partial",
   "theorems": [
    "C71_honest_issuer_refuted",
    "C71_honest_issuer_partial"
   ],
   "note": "Refuted by the history of C35; proved for vouchers never answered 'not paid for'."
  },
  {
   "property": "C72",
   "status": "partial",
   "theorems": [
    "C72_replication_survives_failures_refuted"
   ],
   "note": "Refuted for every history: after any failed remote operation nothing is uploaded until a restart."
  },
  {
   "property": "C73",
   "status": "proved",
   "theorems": [
    "C73_other_calls_are_not_important",
    "C73_new_tokens_are_uploaded_at_once"
   ],
   "note": ""
  },
  {
   "property": "C74",
   "status": "partial",
   "theorems": [
    "C74_exactly_the_covered_streams_partial",
    "C74_exactly_the_covered_streams_refuted"
   ],
   "note": "Refuted for names that begin with event-stream- but are no stream names; the partial theorem covers directories without such names."
  },
  {
   "property": "C75",
   "status": "proved",
   "theorems": [
    "C75_round_trip",
    "C75_everything_else_is_refused",
    "C75_schema_first"
   ],
   "note": "The text of the dump itself is SQLite's."
  },
  {
   "property": "C76",
   "status": "partial",
   "theorems": [
    "C76_changes_are_recovered_refuted",
    "C76_changes_are_recovered_partial"
   ],
   "note": "Refuted for every database while Python assertions are on: the node's cursor asserts that arguments are a tuple, decoded ones are lists. Proved without assertions."
  },
  {
   "property": "C77",
   "status": "partial",
   "theorems": [
    "C77_stopped_while_waiting_partial",
    "C77_stopped_while_running_refuted"
   ],
   "note": "Holds when stopped while waiting; false when stopped during a run (refuted): stopping raises and the next run is scheduled all the same."
  },
  {
   "property": "C78",
   "status": "partial",
   "theorems": [
    "C78_earlier_servers_are_maintained_partial",
    "C78_a_small_file_stops_maintenance_refuted",
    "C78_one_server_stops_the_rest_refuted"
   ],
   "note": "False: a failing server keeps the later ones from being maintained, and a literal file keeps everything from being maintained (refuted). Proved: the servers before the one that fails are maintained."
  },
  {
   "property": "C79",
   "status": "proved",
   "theorems": [
    "C79_secrets_are_those_of_the_uploader",
    "C79_runs_reuse_one_lease"
   ],
   "note": "For histories consisting of one node's runs against one server."
  },
  {
   "property": "C80",
   "status": "partial",
   "theorems": [
    "C80_accepted_schedule_partial",
    "C80_wide_range_ends_the_service_refuted"
   ],
   "note": "False: a range above twice the mean is accepted, and a negative sample ends the service (refuted). Holds for smaller ranges."
  },
  {
   "property": "C81",
   "status": "partial",
   "theorems": [
    "C81_resumed_refuted",
    "C81_created_refuted",
    "C81_resumed_partial",
    "C81_nothing_lost"
   ],
   "note": "Refuted for every older version but 7, and for new databases: the database cannot be opened any more. Proved for 7; nothing is lost from any version."
  },
  {
   "property": "C82",
   "status": "proved",
   "theorems": [
    "C82_columns_read",
    "C82_vouchers_read_back"
   ],
   "note": "Over histories of the store model; the columns are read with Voucher.from_row."
  },
  {
   "property": "C83",
   "status": "proved",
   "theorems": [
    "C83_times_kept",
    "C83_times_sorted",
    "C83_moments_are_all_times",
    "C83_utc_needed"
   ],
   "note": "Date texts down to characters; C83_utc_needed shows why the order is claimed for UTC only."
  },
  {
   "property": "C84",
   "status": "partial",
   "theorems": [
    "C84_json_checked_partial",
    "C84_base64_refuted"
   ],
   "note": "Everything but base64: C84_base64_refuted, any 44 ASCII characters are accepted because the validator's result is ignored."
  },
  {
   "property": "C85",
   "status": "partial",
   "theorems": [
    "C85_lookup_partial",
    "C85_segment",
    "C85_never_a_crash_refuted"
   ],
   "note": "All UTF-8 segments; C85_never_a_crash_refuted: a segment that is not UTF-8 fails the request."
  },
  {
   "property": "C86",
   "status": "proved",
   "theorems": [
    "C86_replica_stays",
    "C86_one_replica"
   ],
   "note": "Over every history of requests, directory creations and restarts."
  },
  {
   "property": "C87",
   "status": "partial",
   "theorems": [
    "C87_told_the_capability_partial",
    "C87_never_told_refuted"
   ],
   "note": "Holds only if the digest of a write capability reads as the read capability; C87_never_told_refuted: otherwise every such request fails (the digest is meant not to be a capability)."
  },
  {
   "property": "C88",
   "status": "proved",
   "theorems": [
    "C88_message",
    "C88_end_to_end"
   ],
   "note": "Down to the bytes of the message; the parser of capabilities is abstract."
  },
  {
   "property": "C89",
   "status": "proved",
   "theorems": [
    "C89_child_found",
    "C89_child_missing"
   ],
   "note": "for every directory graph and download outcome"
  },
  {
   "property": "C90",
   "status": "proved",
   "theorems": [
    "C90_listed",
    "C90_all_or_nothing"
   ],
   "note": "for every JSON body; capabilities are texts that their parser reads back"
  },
  {
   "property": "C91",
   "status": "proved",
   "theorems": [
    "C91_download",
    "C91_list",
    "C91_link",
    "C91_unlink",
    "C91_distinct"
   ],
   "note": "for every name and capability of Unicode scalar values, API at the root of the node's URL"
  },
  {
   "property": "C92",
   "status": "proved",
   "theorems": [
    "C92_refusals_mean_what_they_say",
    "C92_success_is_claimed"
   ],
   "note": "for every library; loads is the JSON scanner of JsonModel"
  },
  {
   "property": "C93",
   "status": "proved",
   "theorems": [
    "C93_tokens_are_signed_by_the_named_key",
    "C93_honest_issuer_is_understood"
   ],
   "note": "soundness of the library's proofs and invertibility of blinding factors are hypotheses"
  },
  {
   "property": "C94",
   "status": "proved",
   "theorems": [
    "C94_redeemed_tokens_are_accepted",
    "C94_bound_to_message_and_key",
    "C94_meets_the_assumptions_of_C26"
   ],
   "note": "the keyed hash is not assumed injective"
  },
  {
   "property": "C95",
   "status": "proved",
   "theorems": [
    "C95_what_the_issuer_reads",
    "C95_any_preimages_fit",
    "C95_vouchers_cannot_be_told_apart"
   ],
   "note": "perfect hiding; hypotheses: prime order group, every scalar can be written"
  },
  {
   "property": "C96",
   "status": "proved",
   "theorems": [
    "C96_snapshot_when_ten_times_dearer",
    "C96_the_directory_is_weighed",
    "C96_replica_cost_settles"
   ],
   "note": "The decision is exact for positive parameters. The bound holds when the service comes to rest after an upload of changes; it says nothing while changes are still arriving, or about a service stopped by a failure (C72)."
  },
  {
   "property": "C97",
   "status": "partial",
   "theorems": [
    "C97_histogram_counts",
    "C97_one_observation_per_accepted_request",
    "C97_metric_is_the_record_partial",
    "C97_metric_is_the_record_refuted"
   ],
   "note": "One observation per accepted request and the histogram are proved. The sum equals the record unless mutable shares are written; in general it is at most the record, because a write records all valid passes and observes its price (witness in C97_metric_is_the_record_refuted)."
  },
  {
   "property": "C98",
   "status": "partial",
   "theorems": [
    "C98_passes_come_first",
    "C98_new_arguments_come_first",
    "C98_no_call_without_passes",
    "C98_answers_are_checked_refuted"
   ],
   "note": "Arguments are proved. That answers are checked is false: add_arguments drops the answer constraint (C98_answers_are_checked_refuted)."
  },
  {
   "property": "C99",
   "status": "partial",
   "theorems": [
    "C99_passes_can_be_presented_partial",
    "C99_passes_can_be_presented_refuted"
   ],
   "note": "Holds up to 2^20 passes per call; false beyond (C99_passes_can_be_presented_refuted)."
  },
  {
   "property": "C100",
   "status": "partial",
   "theorems": [
    "C100_users_share_store",
    "C100_one_service_per_connection",
    "C100_one_connection_partial",
    "C100_one_connection_client_node",
    "C100_one_connection_refuted"
   ],
   "note": "All users share one store and each connection has at most one service in all histories; one connection as long as the store has users, in particular on a client node with the maintenance service attached; refuted in general."
  },
  {
   "property": "C101",
   "status": "proved",
   "theorems": [
    "C101_allocate_served",
    "C101_add_lease_served",
    "C101_writev_served"
   ],
   "note": "Both clocks agree and nobody else uses the wallet or the storage index during the call (as in C26); the price fits SQLite's integer range."
  },
  {
   "property": "C102",
   "status": "proved",
   "theorems": [
    "C102_upload",
    "C102_upload_succeeds",
    "C102_make_directory",
    "C102_make_directory_succeeds",
    "C102_link",
    "C102_link_succeeds",
    "C102_unlink",
    "C102_unlink_succeeds",
    "C102_not_writeable",
    "C102_list"
   ],
   "note": "Downloads are C65; what is made of the text of a listing is C90."
  },
  {
   "property": "C103",
   "status": "partial",
   "theorems": [
    "C103_allowed_keys_partial",
    "C103_blank_after_comma_refuted",
    "C103_option_is_needed"
   ],
   "note": "Proved for lists without blanks between the keys (blanks around the whole value are fine). False otherwise: with a blank after a comma, the usual way to write a list, the following key is not allowed, for every two keys, so tokens signed with it are put aside and never spent."
  },
  {
   "property": "C104",
   "status": "proved",
   "theorems": [
    "C104_enabled_iff_named",
    "C104_off_by_default"
   ],
   "note": "Names and blanks are ASCII."
  },
  {
   "property": "C105",
   "status": "proved",
   "theorems": [
    "C105_client_only_for_the_same_issuer",
    "C105_other_issuer",
    "C105_redeems_at_the_configured_issuer",
    "C105_configured_alike",
    "C105_numbers",
    "C105_server_numbers",
    "C105_wrong_numbers",
    "C105_only_named_redeemers"
   ],
   "note": "URL.from_text is a parameter. Pass values and public keys of client and server are not compared by the code; see C106."
  },
  {
   "property": "C106",
   "status": "partial",
   "theorems": [
    "C106_same_terms_refuted",
    "C106_underpaid_allocate",
    "C106_underpaid_add_lease",
    "C106_underpaid_writev",
    "C106_overpaid_allocate",
    "C106_overpaid_add_lease",
    "C106_overpaid_writev"
   ],
   "note": "False as stated: nothing compares pass values or keys, so client and server can be set up with different ones (witness). What happens then is proved for the three paid calls."
  },
  {
   "property": "C107",
   "status": "partial",
   "theorems": [
    "C107_answers_are_checked_partial",
    "C107_wrong_reference_is_refused",
    "C107_malformed_estimates_cost_nothing",
    "C107_writes_return_well_formed_results",
    "C107_malformed_write_answers_raise",
    "C107_honest_answers_are_used",
    "C107_slot_readv_refuted",
    "C107_allocate_refuted"
   ],
   "note": "False of slot_readv, whose answer is returned unchecked, and of allocate_buckets, which takes anything with two elements (both _refuted). Proved for all other calls. Foolscap's own constraints on answers are not modelled; C98 shows that those of paid calls are not applied."
  },
  {
   "property": "C108",
   "status": "partial",
   "theorems": [
    "C108_allocate_costs_at_most_its_price",
    "C108_lease_costs_at_most_its_price_partial",
    "C108_write_costs_at_most_a_fresh_write_partial",
    "C108_lease_refuted",
    "C108_write_refuted"
   ],
   "note": "Proved for allocations. For leases and writes proved if reported sizes are not negative, and refuted otherwise: a negative price takes every token of any wallet. Foolscap's Offset constraint accepts negative numbers and stat_shares is unconstrained. Tokens marked invalid because the server refuses them are not counted as spent."
  },
  {
   "property": "C109",
   "status": "proved",
   "theorems": [
    "C109_no_pass_is_shared",
    "C109_every_pass_is_where_it_should_be",
    "C109_no_pass_is_charged_twice",
    "C109_other_passes_are_left_alone",
    "C109_single_calls_are_included"
   ],
   "note": "for any number of concurrent calls over one store; C109_single_calls_are_included ties the system to the loop model of C21-C25"
  },
  {
   "property": "C110",
   "status": "proved",
   "theorems": [
    "C110_the_books_balance",
    "C110_price_of_a_call",
    "C110_enough_for_all"
   ],
   "note": "C110_sharp shows that one pass fewer is not enough"
  },
  {
   "property": "C111",
   "status": "partial",
   "theorems": [
    "C111_already_spent_is_shown",
    "C111_unpaid_is_shown",
    "C111_error_is_shown_refuted",
    "C111_error_is_shown_partial",
    "C111_unusable_tokens_change_nothing",
    "C111_success_is_stored_and_carried_on"
   ],
   "note": "The error part is refuted after an earlier unpaid answer (C111_error_is_shown_refuted) and proved without one."
  },
  {
   "property": "C112",
   "status": "partial",
   "theorems": [
    "C112_not_renewed_within_the_period",
    "C112_no_longer_period",
    "C112_period_is_positive_refuted",
    "C112_period_is_positive_partial"
   ],
   "note": "Positivity is refuted for a configured minimum of 31 days or more and proved below."
  },
  {
   "property": "C113",
   "status": "proved",
   "theorems": [
    "C113_refused",
    "C113_outsiders_make_no_difference"
   ],
   "note": "for every history and request"
  },
  {
   "property": "C114",
   "status": "proved",
   "theorems": [
    "C114_only_submitting_changes",
    "C114_looking_does_nothing",
    "C114_list",
    "C114_list_can_be_read",
    "C114_others_are_not_found",
    "C114_there_is_nothing_else"
   ],
   "note": "for every history and request"
  },
  {
   "property": "C115",
   "status": "partial",
   "theorems": [
    "C115_submitting_is_answered",
    "C115_submitted_vouchers_are_shown_partial",
    "C115_only_submitted_vouchers_are_shown",
    "C115_no_voucher_when_there_are_too_few_tokens",
    "C115_submitted_vouchers_are_shown_refuted"
   ],
   "note": "proved for at least as many tokens per voucher as groups and fresh tokens; refuted otherwise (witness)"
  },
  {
   "property": "C116",
   "status": "proved",
   "theorems": [
    "C116_report"
   ],
   "note": "for every history and request"
  },
  {
   "property": "C117",
   "status": "partial",
   "theorems": [
    "C117_recovered_tokens_partial",
    "C117_recovered_tokens_refuted"
   ],
   "note": "Holds in calm histories (as C39) for tokens not set aside for a call at that time, and for all tokens once the recovered node has been restarted. Refuted in full: setting a token aside is a recorded change and is carried out again by the recovery, so such a token cannot be spent until a restart."
  },
  {
   "property": "C118",
   "status": "partial",
   "theorems": [
    "C118_generated_configuration_reads_back_partial",
    "C118_generated_configuration_reads_back_refuted"
   ],
   "note": "Reading back is proved for all dictionaries whose names and values fit on one line; the documented merging of sections given several times is false (witness): the last dictionary with the section replaces the earlier ones."
  },
  {
   "property": "C120",
   "status": "partial",
   "theorems": [
    "C120_redeeming_keeps_the_stack_limit_partial",
    "C120_redeeming_keeps_the_stack_limit_refuted"
   ],
   "note": "Proved unless the proof in an answer is refused; then the soft limit stays raised (witness)."
  },
  {
   "property": "C122",
   "status": "proved",
   "theorems": [
    "C122_allocate_paid",
    "C122_add_lease_paid",
    "C122_writev_paid"
   ],
   "note": "for all three kinds of calls; the Ristretto library is assumed lawful (RedeemSpec), its proofs sound"
  },
  {
   "property": "C123",
   "status": "proved",
   "theorems": [
    "C123_every_lease_was_paid_for",
    "C123_every_upload_was_paid_for",
    "C123_renewals_are_given_and_kept",
    "C123_uploads_are_given_and_kept"
   ],
   "note": "Model histories start with an empty disk; storage indexes are used for immutable or for mutable shares, not both (C07 shows why). A request that fails half-way (C70) may leave leases it has passes for although none is recorded as spent."
  },
  {
   "property": "C124",
   "status": "proved",
   "theorems": [
    "C124_everything_reachable_is_leased",
    "C124_no_more_is_spent_than_reported"
   ],
   "note": "The run is taken alone: no other use of the wallet or the servers while it lasts, and one clock."
  },
  {
   "property": "C125",
   "status": "proved",
   "theorems": [
    "C125_enough_tokens_keep_everything"
   ],
   "note": "The node and its servers are otherwise idle."
  },
  {
   "property": "C126",
   "status": "partial",
   "theorems": [
    "C126_paid_for_all_it_holds_refuted",
    "C126_only_abandoned_writes_are_unpaid",
    "C126_paid_for_all_it_holds_partial"
   ],
   "note": "False in general (refuted with a witness: a write abandoned by the wrapped server stores data without recording passes). Proved for all histories with the price of abandoned writes added, and so in full for histories without abandoned writes."
  },
  {
   "property": "C127",
   "status": "proved",
   "theorems": [
    "C127_success_means_everything_is_leased"
   ],
   "note": "every run that reports no error; servers in reachable states"
  },
  {
   "property": "C128",
   "status": "proved",
   "theorems": [
    "C128_uploads_are_those_in_progress",
    "C128_nothing_else_is_remembered",
    "C128_lost_connection_keeps_the_rest",
    "C128_every_state_is_one_without_connections"
   ],
   "note": "Tahoe's BucketWriter and foolscap's notifyOnDisconnect are modelled as ConnModel.v says; a marker and a callback are identified with the bucket writer"
  },
  {
   "property": "C129",
   "status": "proved",
   "theorems": [
    "C129_redeemed_tokens_keep_everything"
   ],
   "note": "total correctness for directory graphs without cycles (C55 shows that a cycle never ends)"
  },
  {
   "property": "C130",
   "status": "proved",
   "theorems": [
    "C130_the_quoted_price_is_enough",
    "C130_redeemed_tokens_upload",
    "C130_overhead_is_not_quoted"
   ],
   "note": "upload at the calculator's price; the calculator leaves Tahoe-LAFS's per-share hash overhead out (C130_overhead_is_not_quoted), and so does the model of uploads"
  },
  {
   "property": "C131",
   "status": "proved",
   "theorems": [
    "C131_files_are_kept_for_the_quoted_price",
    "C131_redeemed_tokens_keep_files"
   ],
   "note": "composition of C130 and C125; shares of the calculator's size, nothing else using the wallet or the servers meanwhile"
  },
  {
   "property": "C132",
   "status": "proved",
   "theorems": [
    "C132_exactly_the_texts_that_are_json",
    "C132_exactly_the_messages_that_are_json",
    "C132_objects_in_answers",
    "C132_one_reading",
    "C132_deep_texts",
    "C132_exactly_the_utf8_is_text"
   ],
   "note": "Reading JSON texts against an independent grammar"
  },
  {
   "property": "C133",
   "status": "proved",
   "theorems": [
    "C133_logging_changes_nothing",
    "C133_logging_changes_no_allocation",
    "C133_log_adds_up",
    "C133_allocation_log_adds_up",
    "C133_whole_log",
    "C133_whole_allocation_log",
    "C133_log_shows_no_token",
    "C133_allocation_log_shows_no_token"
   ],
   "note": "Log messages of spending.py and _storage_client.py; Eliot's own fields (time, task, level) are not modelled. Tokens are convertible to passes and other tasks behave politely, as in C21."
  },
  {
   "property": "C134",
   "status": "proved",
   "theorems": [
    "C134_logging_changes_nothing",
    "C134_log_shows_no_secret",
    "C134_log_says_how_it_ended",
    "C134_lease_sizes_are_true",
    "C134_write_sizes_are_true",
    "C134_write_price_is_true",
    "C134_accepted_write_is_explained",
    "C134_write_summary_is_true"
   ],
   "note": "the text of exceptions and what Eliot adds to messages are not modelled"
  },
  {
   "property": "C135",
   "status": "proved",
   "theorems": [
    "C135_requests_are_alike",
    "C135_vouchers_are_shown_alike",
    "C135_wallet_answers_alike",
    "C135_log_shows_no_token"
   ],
   "note": "equality of tokens is preserved by the renaming; the redeemer's own messages are not modelled"
  },
  {
   "property": "C136",
   "status": "proved",
   "theorems": [
    "C136_log_tells_requests",
    "C136_log_tells_credits"
   ],
   "note": "tokens are put into the store by redemption only"
  },
  {
   "property": "C137",
   "status": "proved",
   "theorems": [
    "C137_nothing_important_is_left",
    "C137_recovered_wallet_keeps",
    "C137_what_is_there_now_gets_safe",
    "C137_an_added_voucher_gets_safe"
   ],
   "note": "The wallet theorems assume what C41's partial theorem does: calls return or write nothing, and no upload is interrupted after taking effect; without that recovery itself is refuted (C39, C41). That a stream is no shorter than the texts in it is a hypothesis."
  },
  {
   "property": "C138",
   "status": "proved",
   "theorems": [
    "C138_recovered_wallet_asks_alike",
    "C138_one_set_of_tokens",
    "C138_requests_get_safe",
    "C138_behind_means_stored"
   ],
   "note": "At wallet level: what add answers is what the controller sends (C30). Interruptions that strike an upload half way are excluded, as in C137."
  },
  {
   "property": "C139",
   "status": "proved",
   "theorems": [
    "C139_never_double_spent",
    "C139_whole_value",
    "C139_resumed"
   ],
   "note": "Losses with an upload struck half way are excluded as in C137, vouchers answered 'not paid for' as in C71; the node has to be started after the recovery."
  },
  {
   "property": "C140",
   "status": "proved",
   "theorems": [
    "C140_the_purse",
    "C140_the_count",
    "C140_from_the_issuer",
    "C140_nothing_given_is_left_out",
    "C140_only_allowed_keys_are_spent"
   ],
   "note": "A token declared invalid that the issuer gives again is taken out at the next declaration of invalid tokens (finding of C17)."
  },
  {
   "property": "C141",
   "status": "proved",
   "theorems": [
    "C141_vouchers_are_worth_their_tokens",
    "C141_shown_tokens_store_files",
    "C141_vouchers_store_files"
   ],
   "note": "composition of C29, C122, C131 and C140; new wallets used by redemption only for the worth, any use for the number shown"
  },
  {
   "property": "C142",
   "status": "proved",
   "theorems": [
    "C142_recovered_vouchers_are_worth_their_tokens",
    "C142_recovered_tokens_store_files"
   ],
   "note": ""
  },
  {
   "property": "C143",
   "status": "proved",
   "theorems": [
    "C143_nothing_given_is_left_out",
    "C143_the_keys_of_the_day",
    "C143_settings_leave_tokens_alone",
    "C143_set_aside_for_good",
    "C143_on_a_recovered_node"
   ],
   "note": "for every history in which the settings may change at any event; the code reads them when the node is started"
  },
  {
   "property": "C144",
   "status": "proved",
   "theorems": [
    "C144_the_number_of_the_day",
    "C144_the_number_stays",
    "C144_requests_are_for_that_number",
    "C144_retries_send_the_same_tokens",
    "C144_each_group_once",
    "C144_redeemed_for_that_number",
    "C144_on_a_recovered_node",
    "C144_redeemed_on_a_recovered_node"
   ],
   "note": "for every history in which the settings may change at any event; the last two claims under the conditions that C29 and C30 need (the voucher is never called unpaid, answers are complete)"
  }
 ]
}
