{
 "claims": [
  {
   "property": "C01",
   "status": "proved",
   "theorems": [
    "C01_iterator_exact",
    "C01_iterator_with_error",
    "C01_next_context"
   ],
   "note": "Iterator, error iterator and NextContext."
  },
  {
   "property": "C02",
   "status": "proved",
   "theorems": [
    "C02_merge_exact",
    "C02_merge_same_type_twice_refuted"
   ],
   "note": "For sources sharing no number; C02_merge_same_type_twice_refuted shows why that hypothesis is needed (the same aggregate type requested twice)."
  },
  {
   "property": "C03",
   "status": "partial",
   "theorems": [
    "C03_merge_with_errors_partial",
    "C03_merge_never_reports_an_error_refuted"
   ],
   "note": "False of the code: the merged iterator never reports an error (C03_merge_never_reports_an_error_refuted, for every input). Proved: what is delivered instead."
  },
  {
   "property": "C04",
   "status": "partial",
   "theorems": [
    "C04_parse_get_iff",
    "C04_get_stream_injective",
    "C04_parse_panics_iff",
    "C04_round_trip_refuted",
    "C04_parse_never_panics_refuted"
   ],
   "note": "False for names containing '!' (C04_round_trip_refuted, C04_parse_never_panics_refuted); proved exactly when the round trip holds and when ParseStream panics."
  },
  {
   "property": "C05",
   "status": "proved",
   "theorems": [
    "C05_read_n_records"
   ],
   "note": ""
  },
  {
   "property": "C06",
   "status": "proved",
   "theorems": [
    "C06_inmemory_refines_log"
   ],
   "note": "For all plain histories (one aggregate per batch, no cancellation inside a batch, no type asked for twice, streams named type!id when a batch of several can fail to encode), which is the quantifier of the property; the only liberty is the answer to deleting a stream without events. What happens outside is refuted under C08, C10, C12."
  },
  {
   "property": "C07",
   "status": "proved",
   "theorems": [
    "C07_numbers_grow",
    "C07_events_sorted"
   ],
   "note": "For every history without any restriction."
  },
  {
   "property": "C08",
   "status": "partial",
   "theorems": [
    "C08_streams_numbered_from_one",
    "C08_streams_numbered_refuted"
   ],
   "note": "Proved for all tame histories (every history if the serializer never fails); C08_streams_numbered_refuted: an encoding failure in a batch saved to a stream not named type!id trims the wrong stream."
  },
  {
   "property": "C09",
   "status": "proved",
   "theorems": [
    "C09_inmemory_compare_and_append",
    "C09_leveldb_compare_and_append"
   ],
   "note": "Both stores, under the hypotheses spelled out in the quantifier."
  },
  {
   "property": "C10",
   "status": "partial",
   "theorems": [
    "C10_failed_save_leaves_no_trace_partial",
    "C10_later_answers_unchanged_partial",
    "C10_mismatched_batch_refuted",
    "C10_cancelled_batch_refuted",
    "C10_store_wedged_refuted",
    "C10_number_burnt_refuted",
    "C10_leveldb_failed_save_leaves_no_trace"
   ],
   "note": "In-memory: false in general (four _refuted theorems: mismatched batch, cancelled batch, wedged store, burnt number); proved for plain saves. LevelDB: proved for every save whatever the names, batch and failure."
  },
  {
   "property": "C11",
   "status": "proved",
   "theorems": [
    "C11_inmemory_delete_exact",
    "C11_leveldb_delete_exact"
   ],
   "note": "Both stores, under the hypotheses spelled out in the quantifier."
  },
  {
   "property": "C12",
   "status": "partial",
   "theorems": [
    "C12_inmemory_rejected_delete_changes_nothing",
    "C12_inmemory_delete_answer",
    "C12_inmemory_not_found",
    "C12_not_found_refuted",
    "C12_leveldb_delete_answer",
    "C12_leveldb_rejected_delete_keeps_data"
   ],
   "note": "In-memory: state unchanged proved for every state; 'not found exactly when no events' proved when no save failed before, refuted otherwise (C12_not_found_refuted). LevelDB: answer proved, data unchanged proved; but the refused delete wedges later writers (C18)."
  },
  {
   "property": "C13",
   "status": "proved",
   "theorems": [
    "C13_inmemory_views_agree",
    "C13_leveldb_views_agree"
   ],
   "note": "Both stores, under the hypotheses spelled out in the quantifier."
  },
  {
   "property": "C14",
   "status": "proved",
   "theorems": [
    "C14_suffix_decodes",
    "C14_keys_sort_as_numbers",
    "C14_iteration_in_number_order"
   ],
   "note": ""
  },
  {
   "property": "C15",
   "status": "partial",
   "theorems": [
    "C15_reads_stay_in_their_stream",
    "C15_calls_do_not_touch_others",
    "C15_reads_stay_in_their_type",
    "C15_streams_leak_refuted"
   ],
   "note": "False for names containing `$!` (C15_streams_leak_refuted); proved for all other names."
  },
  {
   "property": "C16",
   "status": "partial",
   "theorems": [
    "C16_leveldb_refines_log_partial",
    "C16_leveldb_answers_as_log_partial",
    "C16_blocks_refuted"
   ],
   "note": "Every call that returns is answered as by the log; every call returns unless a delete was refused before (C18_store_wedged_refuted shows that then calls block for ever)."
  },
  {
   "property": "C17",
   "status": "proved",
   "theorems": [
    "C17_crash_atomic",
    "C17_all_or_nothing"
   ],
   "note": "History theorem for names without `$!`; per-call atomicity for every name, state and encoding."
  },
  {
   "property": "C18",
   "status": "partial",
   "theorems": [
    "C18_usable_unless_delete_refused_partial",
    "C18_failed_save_leaves_state",
    "C18_store_wedged_refuted",
    "C18_every_refused_delete_wedges",
    "C18_counting_never_blocks"
   ],
   "note": "False after a refused delete (C18_store_wedged_refuted, C18_every_refused_delete_wedges); proved otherwise for all calls."
  },
  {
   "property": "C19",
   "status": "partial",
   "theorems": [
    "C19_stores_interchangeable_partial",
    "C19_delete_differs_refuted",
    "C19_mixed_batch_differs_refuted"
   ],
   "note": "Proved when no delete is refused and no encoding fails; two differences refute the general claim (C19_*_refuted)."
  },
  {
   "property": "C20",
   "status": "proved",
   "theorems": [
    "C20_in_order_without_duplicates",
    "C20_repeated_type_refuted",
    "C20_last_number_refuted"
   ],
   "note": "Every schedule, any failures, for subscriptions that do not name a type twice and numbers below 2^64-1; two _refuted theorems show both hypotheses are needed."
  },
  {
   "property": "C21",
   "status": "partial",
   "theorems": [
    "C21_start_from_misses_nothing",
    "C21_leveldb",
    "C21_several_types_refuted"
   ],
   "note": "Proved for all-events and one-type subscriptions in every schedule in which saves hand over their records in the order of their commits (every LevelDB schedule; every schedule without overlapping saves). False for several types (C21_several_types_refuted): records are lost when the types are read one after the other."
  },
  {
   "property": "C22",
   "status": "partial",
   "theorems": [
    "C22_overlapping_saves_refuted",
    "C22_live_misses_nothing_partial"
   ],
   "note": "False for overlapping saves to the in-memory store that hand over their records in another order than that of their commits (C22_overlapping_saves_refuted). C22_live_misses_nothing_partial: nothing is missed if saves do not overlap or hand over in turn, for any set of types."
  },
  {
   "property": "C23",
   "status": "partial",
   "theorems": [
    "C23_future_g_refuted",
    "C23_future_g_never_delivered",
    "C23_from_next_partial"
   ],
   "note": "False: StartFrom(g) before g exists never delivers g (C23_future_g_refuted, C23_future_g_never_delivered in every schedule). Proved for the records from g+1 on."
  },
  {
   "property": "C24",
   "status": "partial",
   "theorems": [
    "C24_catch_up_exact",
    "C24_read_error_reported_refuted",
    "C24_live_with_gap_refuted",
    "C24_no_read_error_partial"
   ],
   "note": "False: the iterator's error is never returned, for any channel content (C24_read_error_reported_refuted; C24_live_with_gap_refuted through StartFrom). Proved: exactly what the loop does, and the claim without read errors."
  },
  {
   "property": "C25",
   "status": "partial",
   "theorems": [
    "C25_delivered_as_due",
    "C25_one_broadcast",
    "C25_off_the_lists_gets_nothing",
    "C25_slow_is_stopped",
    "C25_others_do_not_matter",
    "C25_close_stops_the_listed",
    "C25_once_per_subscriber_refuted",
    "C25_stopped_but_served_refuted"
   ],
   "note": "Deliveries and stops exactly as due by the history, for every history and slowness pattern; others never matter. 'Once per subscriber' is false for a subscriber on both lists (two _refuted theorems)."
  },
  {
   "property": "C26",
   "status": "partial",
   "theorems": [
    "C26_close_stops_everyone",
    "C26_done_never_closes_refuted",
    "C26_stop_finishes_partial",
    "C26_saves_block_after_close"
   ],
   "note": "Everyone listed is stopped, but the Done channel of a live subscription never closes, in any continuation (C26_done_never_closes_refuted), and saves block for good. While the broadcaster runs a stopped subscription gets to Done."
  },
  {
   "property": "C27",
   "status": "partial",
   "theorems": [
    "C27_inmemory_one_type_answered_partial",
    "C27_inmemory_tame_calls_answered_partial",
    "C27_leveldb_one_type_answered_partial",
    "C27_inmemory_deadlock_refuted",
    "C27_leveldb_deadlock_refuted"
   ],
   "note": "Refuted for reads of several aggregate types (C27_*_deadlock_refuted: after the given run, no continuation without a cancellation answers the reader, the writer or any later lock-taking call). Proved for calls that take the lock at most once: in-memory, every call is inevitably answered if the calls are tame, otherwise answered or one panicked; LevelDB, answered or a delete was refused."
  },
  {
   "property": "C28",
   "status": "proved",
   "theorems": [
    "C28_concurrent_saves_numbered",
    "C28_one_winner",
    "C28_acknowledged_saves_stand",
    "C28_numbered_with_exclusive_deletes_partial",
    "C28_numbering_with_delete_refuted"
   ],
   "note": "For any number of concurrent writers, failing statements and server restarts, any lock key function (hash collisions included): C28_concurrent_saves_numbered, C28_one_winner, C28_acknowledged_saves_stand (stream without deletes, as the property says). With deletes that are never past their check together with another writer of the stream: C28_numbered_with_exclusive_deletes_partial; without that guard false: C28_numbering_with_delete_refuted."
  },
  {
   "property": "C29",
   "status": "partial",
   "theorems": [
    "C29_delete_loses_acknowledged_save_refuted",
    "C29_both_deletes_succeed_refuted",
    "C29_exclusive_delete_removes_exactly_partial",
    "C29_records_vanish_only_by_delete"
   ],
   "note": "False of the code: C29_delete_loses_acknowledged_save_refuted, C29_both_deletes_succeed_refuted (deletes take no advisory lock). Holds when no delete is past its check together with another delete or save of the stream: C29_exclusive_delete_removes_exactly_partial. Always: C29_records_vanish_only_by_delete."
  },
  {
   "property": "C30",
   "status": "partial",
   "theorems": [
    "C30_resumed_reader_misses_refuted",
    "C30_nothing_appears_behind_partial",
    "C30_resumed_reader_sees_all_partial"
   ],
   "note": "False of the code: C30_resumed_reader_misses_refuted (numbers are taken before commit). Holds if at most one save at a time has uncommitted numbered rows: C30_nothing_appears_behind_partial, C30_resumed_reader_sees_all_partial."
  },
  {
   "property": "C31",
   "status": "proved",
   "theorems": [
    "C31_insert_binds_each_field"
   ],
   "note": "C31_insert_binds_each_field: the generated text is parsed by an independent scanner of placeholder groups; every placeholder is bound to the field its column names, for every batch."
  },
  {
   "property": "C32",
   "status": "partial",
   "theorems": [
    "C32_metadata_never_acknowledged_refuted",
    "C32_metadata_save_refused_but_stored_refuted",
    "C32_metadata_hides_records_refuted"
   ],
   "note": "False of the code for every metadata other than nil: C32_metadata_never_acknowledged_refuted (universal), C32_metadata_save_refused_but_stored_refuted, C32_metadata_hides_records_refuted. Nil metadata is covered by C60 and C28_acknowledged_saves_stand."
  },
  {
   "property": "C33",
   "status": "partial",
   "theorems": [
    "C33_conflict_tells_the_last_number",
    "C33_save_behind_expected_events_partial",
    "C33_one_winner_partial",
    "C33_both_saves_at_zero_succeed_refuted",
    "C33_failed_check_admits_save_refuted",
    "C33_delete_of_exactly_expected_partial",
    "C33_gone_only_as_expected_partial",
    "C33_log_is_whole_saves_partial",
    "C33_delete_at_zero_deletes_an_event_refuted"
   ],
   "note": "Proved for expected numbers >= 1 (saves land behind exactly that many events, one winner, deletes of exactly that many, also when the server's answer is lost; the server's log is whole saves, each call at most once). Refuted for 0: two overlapping saves expecting 0 both succeed, a failed check read admits a save expecting 0, a delete expecting 0 deletes a one-event stream."
  },
  {
   "property": "C34",
   "status": "partial",
   "theorems": [
    "C34_numbers_come_from_the_text",
    "C34_numbers_survive_any_prefix",
    "C34_conflict_reported",
    "C34_only_conflicts_partial",
    "C34_foreign_text_refuted"
   ],
   "note": "Numbers round-trip through the text for every prefix; save and delete conflicts reach the caller whatever the store; numbers other than 0, 0 are read only from a text that says them (C34_numbers_come_from_the_text). That nothing else is reported as a conflict holds only if other error texts do not hold the marker words (C34_only_conflicts_partial); C34_foreign_text_refuted is the counterexample."
  },
  {
   "property": "C35",
   "status": "partial",
   "theorems": [
    "C35_stream_read_error_arrives_partial",
    "C35_read_errors_swallowed_refuted"
   ],
   "note": "Holds for EventsByStream; for Events and EventsByAggregateTypes it fails for every record count (C35_read_errors_swallowed_refuted)."
  },
  {
   "property": "C36",
   "status": "partial",
   "theorems": [
    "C36_integers_pass_through_float64",
    "C36_small_integers_survive_partial",
    "C36_large_integers_collide_refuted"
   ],
   "note": "Holds below 2^53 at every place in the data; refuted for every integer that is not a float64 (C36_large_integers_collide_refuted)."
  },
  {
   "property": "C37",
   "status": "partial",
   "theorems": [
    "C37_protobuf_round_trip_partial",
    "C37_metadata_numbers_refuted",
    "C37_metadata_values_collide_refuted"
   ],
   "note": "Round trip for data holding json.Number and metadata holding float64 values; metadata holding json.Number comes back changed (C37_metadata_numbers_refuted)."
  },
  {
   "property": "C38",
   "status": "partial",
   "theorems": [
    "C38_save",
    "C38_save_status",
    "C38_bad_requests",
    "C38_refused_save_changes_nothing_partial",
    "C38_500_but_stored_refuted",
    "C38_empty_list_is_500_refuted",
    "C38_delete",
    "C38_refused_delete_changes_nothing",
    "C38_names_in_any_case"
   ],
   "note": "C38_save (compare-and-append through HTTP on the in-memory store, with status, body and stored records), C38_save_status, C38_bad_requests, C38_delete hold for every request on a single-segment stream name; C38_names_in_any_case: the case of member names makes no difference. C38_500_but_stored_refuted: a 500 answer may leave part of the batch stored; C38_empty_list_is_500_refuted: an empty list is a client error answered with 500. Missing: partial saves excluded by the hypothesis of C38_refused_save_changes_nothing_partial."
  },
  {
   "property": "C39",
   "status": "partial",
   "theorems": [
    "C39_walk_partial",
    "C39_whole_partial",
    "C39_inmemory_partial",
    "C39_other_stream_refuted",
    "C39_no_page_refuted",
    "C39_error_ends_refuted"
   ],
   "note": "Proved over any store (and instantiated for the in-memory store with saves between the requests) for all aggregate types and for stream names whose bytes survive a URL (linkable). Refuted for other names: C39_other_stream_refuted (question mark leads to another stream), C39_no_page_refuted (bad percent escape panics); C39_error_ends_refuted: a read error looks like the last page."
  },
  {
   "property": "C40",
   "status": "proved",
   "theorems": [
    "C40_any_query",
    "C40_next_query",
    "C40_previous_query",
    "C40_next_then_previous_query",
    "C40_next_partial",
    "C40_previous_partial",
    "C40_next_then_previous_partial"
   ],
   "note": "For the links of any stream or type, whatever its name: the query of a next link parses to the page size, the intended index and the extended history; that of a previous link to the shortened one; next then previous gives the state one came from. The _partial theorems say the same of the whole links, including the place, on linkable names; the place is wrong for names with ?, # or % (C39_other_stream_refuted, C39_no_page_refuted)."
  },
  {
   "property": "C41",
   "status": "partial",
   "theorems": [
    "C41_counts",
    "C41_reports_partial",
    "C41_subscribed",
    "C41_greatest_refuted",
    "C41_snapshot_partial",
    "C41_snapshot_cut",
    "C41_snapshot_bytes_refuted",
    "C41_foreign_snapshot_refuted",
    "C41_null_map_refuted"
   ],
   "note": "Counts, total, listed types and order are proved for every sequence of records; the reported number is the greatest for increasing sequences, which is what any subscription delivers (C41_subscribed), and refuted otherwise. Snapshots bring back the same statistics for types that are valid UTF-8 (refuted for others), and a snapshot file cut short is refused as a whole."
  },
  {
   "property": "C42",
   "status": "partial",
   "theorems": [
    "C42_no_snapshot",
    "C42_restart_partial",
    "C42_next_event_refuted",
    "C42_deletion_refuted"
   ],
   "note": "Proved for every schedule without deletions when there is no usable snapshot, and when at least one event was saved between the snapshot and the restart (k counted records of a longer log). Refuted, for every schedule, when nothing was saved in between: the next event is never counted. Refuted for deleted streams."
  },
  {
   "property": "C43",
   "status": "partial",
   "theorems": [
    "C43_unknown_command",
    "C43_last_registered",
    "C43_returned",
    "C43_first_partial",
    "C43_one_stream_partial",
    "C43_overlapping_returned",
    "C43_alone_partial",
    "C43_chat_reloadable",
    "C43_leak_refuted",
    "C43_count_refuted",
    "C43_failing_read_refuted",
    "C43_all_or_nothing_refuted",
    "C43_overlapping_refuted",
    "C43_mixed_up_refuted",
    "C43_lost_event_refuted"
   ],
   "note": "Proved for one dispatch at a time: unknown commands change nothing, the last aggregate registered gets a command, what is returned is what is stored (also for overlapping dispatches), and an aggregate that is new, or has served one stream and can be loaded again (the chat aggregates can), stores exactly what it decides from its stream; a dispatch that runs alone in the concurrent machine is the sequential one. Refuted: the state of one stream leaks into the next since aggregates are shared and never reset (C43_leak_refuted), counting aggregates count twice, failing reads are ignored, the events of one command are not saved together, and overlapping dispatches are not serialisable, duplicate events or lose them."
  },
  {
   "property": "C44",
   "status": "partial",
   "theorems": [
    "C44_banned_never_joins_partial",
    "C44_on_boarded_once_partial",
    "C44_some_room_partial",
    "C44_one_room_partial",
    "C44_not_on_boarded_refuted",
    "C44_ban_leaks_refuted",
    "C44_banned_joins_refuted",
    "C44_application_partial",
    "C44_reaction",
    "C44_expelled_only_after_two_warnings",
    "C44_caught_up_partial",
    "C44_old_warnings_partial",
    "C44_lag_refuted",
    "C44_restart_refuted"
   ],
   "note": "One command at a time: a banned user never joins, a user is on-boarded at most once, whoever is expelled had been warned twice and used a restricted word, the processor does exactly what the warnings counted say. Rooms: some room was on-boarded before a message, the same one if all commands are about one room. Refuted: messages to rooms never on-boarded (C44_not_on_boarded_refuted), bans leak to other rooms, overlapping commands or failing reads let a banned user in, a lagging projection warns again instead of banning, and restricted words before a restart are never looked at."
  },
  {
   "property": "C45",
   "status": "proved",
   "theorems": [
    "C45_cbc",
    "C45_gcm",
    "C45_chacha",
    "C45_encrypting_fails_only_for_want_of_key_or_randomness"
   ],
   "note": "Under the law that a block (an AEAD) opens what it sealed: for every key text, IV or nonce and plain text of every length, Decrypt of Encrypt yields the text, for AES-CBC, AES-GCM and XChaCha20-Poly1305; Encrypt fails exactly for an unusable key or a failing random source."
  },
  {
   "property": "C46",
   "status": "partial",
   "theorems": [
    "C46_gcm",
    "C46_chacha_partial",
    "C46_chacha_refuted",
    "C46_cbc_partial",
    "C46_cbc_refuted"
   ],
   "note": "AES-GCM: proved. False for AES-CBC and XChaCha20-Poly1305 (C46_cbc_refuted, C46_chacha_refuted: panics under every usable key); the _partial theorems say exactly on which inputs they panic."
  },
  {
   "property": "C47",
   "status": "partial",
   "theorems": [
    "C47_memory",
    "C47_postgres_partial",
    "C47_dynamodb_partial",
    "C47_postgres_unknown_subject_refuted",
    "C47_postgres_reuse_refuted",
    "C47_dynamodb_unique_refuted",
    "C47_dynamodb_stale_refuted",
    "C47_vault_refuted",
    "C47_vault_overwrite_refuted",
    "C47_vault_race_refuted",
    "C47_vault_subjects_refuted",
    "C47_vault_subjects_partial"
   ],
   "note": "Proved in full for the in-memory store, for every interleaving. PostgreSQL and DynamoDB (consistent reads): permanent for every interleaving and every lost or unanswered request, PostgreSQL only for subjects that had a key. Refuted: PostgreSQL ignores the deletion of an unknown subject and lets a deleted key be reused; DynamoDB reads may be stale and keys are not unique; Vault's Set brings a deleted subject back, overwrites a key when its read fails or races, and subjects that differ after a question mark share a secret."
  },
  {
   "property": "C48",
   "status": "partial",
   "theorems": [
    "C48_memory",
    "C48_dynamodb_partial",
    "C48_postgres_refuted",
    "C48_postgres_partial",
    "C48_vault_partial",
    "C48_vault_refuted"
   ],
   "note": "Proved for the in-memory store; DynamoDB per call. PostgreSQL refuted for all histories: at most one subject that has a key can ever be deleted (C48_postgres_refuted); the first can be (C48_postgres_partial). Vault: exactly the first two keys of a subject are reached by Delete."
  },
  {
   "property": "C49",
   "status": "partial",
   "theorems": [
    "C49_sequential_partial",
    "C49_deletion_partial",
    "C49_two_processes_refuted",
    "C49_overlapping_gets_refuted",
    "C49_unanswered_deletion_refuted",
    "C49_postgres_refuted"
   ],
   "note": "Proved: for calls one after the other in a process that may restart, the cache is transparent over the in-memory store; for overlapping calls in one restarting process a deleted key is never served. Refuted: a second process, overlapping Gets after a restart, an unanswered deletion, a PostgreSQL store behind it."
  },
  {
   "property": "C50",
   "status": "partial",
   "theorems": [
    "C50_encryptors_decipher",
    "C50_memory",
    "C50_postgres_partial",
    "C50_dynamodb_partial",
    "C50_overlapping_first_encryptions_refuted",
    "C50_vault_refuted",
    "C50_unknown_subject_refuted"
   ],
   "note": "Proved for every interleaving on the in-memory store, PostgreSQL and DynamoDB (consistent reads), for any encryptor that deciphers, which the three do (C50_encryptors_decipher). Refuted: of overlapping first encryptions one fails; on Vault both succeed with different keys; deleting an unknown subject on PostgreSQL or Vault has no effect."
  },
  {
   "property": "C51",
   "status": "partial",
   "theorems": [
    "C51_read_back_partial",
    "C51_retry_refuted",
    "C51_saved_twice_refuted",
    "C51_failed_batch_refuted",
    "C51_by_value_refuted",
    "C51_record_twice_refuted"
   ],
   "note": "Proved for events passed by pointer, with empty target fields, each passed to one save (C51_read_back_partial: any batches, failures of the encryptor or the parent store). Retrying a failed save, saving an event twice, a batch failing midway, events passed by value and calling Record twice break it: the _refuted theorems; the retry one holds for every encryptor and event."
  },
  {
   "property": "C52",
   "status": "partial",
   "theorems": [
    "C52_round_trip_partial",
    "C52_memory_partial",
    "C52_deleted",
    "C52_failure_leaves_event",
    "C52_preset_target_refuted"
   ],
   "note": "Round trip for any encryptor that opens what it sealed, and for the engine on the in-memory key store under any further calls and deletions; full but for events that already have text in a target field, which is lost (C52_preset_target_refuted). Deletion blanks both ways; other failures leave the event unchanged."
  },
  {
   "property": "C53",
   "status": "partial",
   "theorems": [
    "C53_http_msgpack_partial",
    "C53_msgpack_partial",
    "C53_msgpack_serializer_partial",
    "C53_msgpack_raw_refuted",
    "C53_msgpack_number_refuted",
    "C53_json_partial",
    "C53_ndjson_partial",
    "C53_serializer_partial",
    "C53_no_data_refuted",
    "C53_bytes_refuted",
    "C53_float_refuted"
   ],
   "note": "Proved for every list of ordinary records for the JSON, ND-JSON and MessagePack streams and serializers (MessagePack: any bytes, any map order). The full statement is false and refuted: JSON loses missing data, bytes that are not UTF-8 and floats above 2^53; MessagePack loses the data of raw events and turns json.Number values into texts."
  },
  {
   "property": "C54",
   "status": "partial",
   "theorems": [
    "C54_msgpack_refuted",
    "C54_refuted",
    "C54_unwritable_partial"
   ],
   "note": "Refuted for all three formats: an iterator that ends with an error is written as a complete document and no error is reported. The _partial theorem covers the one error the JSON writers do report, a record that cannot be written."
  },
  {
   "property": "C55",
   "status": "partial",
   "theorems": [
    "C55_base64",
    "C55_base64_decodes",
    "C55_base64_encodes",
    "C55_base64_stream",
    "C55_short_uuid",
    "C55_rot13_partial",
    "C55_rot13_refuted"
   ],
   "note": "Base64 (whole and streamed) and short UUIDs: proved for every byte string. ROT13 applied twice is the identity exactly on well-formed UTF-8 texts; for every other byte string the claim is refuted (strings.Map replaces the bytes by U+FFFD)."
  },
  {
   "property": "C56",
   "status": "proved",
   "theorems": [
    "C56_cancel_gives_prefix",
    "C56_no_cancel_gives_all"
   ],
   "note": "Channel content of a producer loop as a function of when the context becomes done."
  },
  {
   "property": "C57",
   "status": "partial",
   "theorems": [
    "C57_inmemory_linearizable_partial",
    "C57_inmemory_linearizable_to_log_partial",
    "C57_leveldb_linearizable_partial",
    "C57_leveldb_linearizable_to_log_partial",
    "C57_inmemory_several_types_refuted",
    "C57_leveldb_several_types_refuted",
    "C57_in_memory_answered_once",
    "C57_leveldb_answered_once"
   ],
   "note": "Proved for any number of goroutines and any schedule when no call reads several aggregate types; to the log specification for plain calls. Refuted for reads of several types (C57_*_several_types_refuted). C57_*_answered_once: in every run, for all calls, what ends a call comes after it and is the only thing that does."
  },
  {
   "property": "C58",
   "status": "partial",
   "theorems": [
    "C58_inmemory_unread_iterator_blocks_refuted",
    "C58_leveldb_unread_iterator_blocks_refuted"
   ],
   "note": "Refuted universally: from every reachable state with an unread iteration, every continuation that neither reads nor cancels it leaves the store unchanged and every later save and delete unanswered; with a waiting writer every later read as well. The guarded positive version is C27 (consumers that keep reading)."
  },
  {
   "property": "C59",
   "status": "partial",
   "theorems": [
    "C59_refused_deletes_exhaust_connections_refuted",
    "C59_only_failed_deletes_keep_connections_partial"
   ],
   "note": "False of the code: C59_refused_deletes_exhaust_connections_refuted (for every limit). Guarded: C59_only_failed_deletes_keep_connections_partial."
  },
  {
   "property": "C60",
   "status": "partial",
   "theorems": [
    "C60_sequential_use_is_the_log_partial",
    "C60_read_beyond_end_refuted"
   ],
   "note": "C60_sequential_use_is_the_log_partial: calls without metadata, not more calls than connections (refused deletes leak); reading beyond the end of a stream differs: C60_read_beyond_end_refuted."
  },
  {
   "property": "C61",
   "status": "partial",
   "theorems": [
    "C61_no_call_forgotten",
    "C61_answered_once",
    "C61_failed_saves_leave_nothing_partial",
    "C61_unconfirmed_commit_refuted"
   ],
   "note": "C61_failed_saves_leave_nothing_partial (all runs, streams nobody deletes; failures other than database or decoding errors store nothing); the exceptions are real: C61_unconfirmed_commit_refuted, C32_metadata_save_refused_but_stored_refuted. C61_no_call_forgotten: in every run each unanswered call can still be answered, also after a restart. C61_answered_once: in every run an answer follows its call and is the only one."
  },
  {
   "property": "C62",
   "status": "proved",
   "theorems": [
    "C62_acknowledged_order"
   ],
   "note": "C62_acknowledged_order, all runs."
  },
  {
   "property": "C63",
   "status": "partial",
   "theorems": [
    "C63_listener_stops_refuted",
    "C63_listener_announces_all_partial"
   ],
   "note": "False of the code: C63_listener_stops_refuted. Guarded: C63_listener_announces_all_partial."
  },
  {
   "property": "C64",
   "status": "proved",
   "theorems": [
    "C64_revisions_and_positions",
    "C64_reads_in_order"
   ],
   "note": "Order, numbering and selection of every answer, in every interleaving."
  },
  {
   "property": "C65",
   "status": "partial",
   "theorems": [
    "C65_deleted_events_stay_refuted",
    "C65_deleted_events_return_refuted",
    "C65_deleted_events_hidden_partial"
   ],
   "note": "Hidden while the deleting process (with RecordDeletedStreams) runs; refuted without the option and after a restart."
  },
  {
   "property": "C66",
   "status": "partial",
   "theorems": [
    "C66_dollar_types_invisible_refuted",
    "C66_saved_events_read_back_partial",
    "C66_views_agree_partial"
   ],
   "note": "C66_saved_events_read_back_partial and C66_views_agree_partial (Events, by types and by stream show one list of records) for types that do not begin with a dollar sign; C66_dollar_types_invisible_refuted otherwise."
  },
  {
   "property": "C67",
   "status": "partial",
   "theorems": [
    "C67_restart_announces_old_records_refuted",
    "C67_stopped_subscription_is_silent_refuted",
    "C67_announced_in_order_partial"
   ],
   "note": "Announced records are in order and complete when caught up; refuted: a restart announces all old records again, a stopped subscription is silent for ever."
  },
  {
   "property": "C68",
   "status": "partial",
   "theorems": [
    "C68_broken_read_counts_less_refuted",
    "C68_total_of_complete_read_partial"
   ],
   "note": "Proved for complete reads; refuted when the read breaks off: a smaller total without an error."
  },
  {
   "property": "C69",
   "status": "partial",
   "theorems": [
    "C69_deleted_stream_is_closed_refuted"
   ],
   "note": "Refuted: after a confirmed delete no save to the stream is ever confirmed."
  },
  {
   "property": "C70",
   "status": "partial",
   "theorems": [
    "C70_live_feed_partial",
    "C70_live_feed_dies_refuted"
   ],
   "note": "Holds while every record decodes; after the first undecodable record nothing is announced (C70_live_feed_dies_refuted)."
  },
  {
   "property": "C71",
   "status": "partial",
   "theorems": [
    "C71_remote_store_transparent_partial",
    "C71_remote_leveldb_as_log_partial",
    "C71_mixed_batch_never_sent"
   ],
   "note": "For any store that answers its calls, from any state and for any history: same state on the server, same counts, records and sequence-number, not-found and missing-events refusals; hence a remote LevelDB store answers as the log. For payloads JSON keeps and batches of one aggregate; errors of whole-log and by-type reads are swallowed (C35_read_errors_swallowed_refuted)."
  },
  {
   "property": "C72",
   "status": "partial",
   "theorems": [
    "C72_data_readable_partial",
    "C72_null_data_refuted",
    "C72_null_data_hides_later_events_refuted"
   ],
   "note": "Holds for every value but null; null data is accepted, unreadable, and hides all later events."
  },
  {
   "property": "C73",
   "status": "partial",
   "theorems": [
    "C73_reading_paths_change_nothing_partial",
    "C73_method_ignored_refuted",
    "C73_get_deletes_refuted"
   ],
   "note": "Reading paths change nothing over any store whose reads change nothing; the GET half is refuted: the method is never looked at (C73_method_ignored_refuted) and a GET deletes a stream (C73_get_deletes_refuted)."
  },
  {
   "property": "C74",
   "status": "partial",
   "theorems": [
    "C74_readable_partial",
    "C74_every_name_has_a_path_partial",
    "C74_spelling",
    "C74_nothing_else",
    "C74_unreachable_refuted"
   ],
   "note": "Names without a slash and types of letters and hyphens are reachable (C74_every_name_has_a_path_partial) and answered with the store's records up to its first error (C74_readable_partial); every spelling of a path is answered alike and bad escapes are refused (C74_spelling); C74_unreachable_refuted: no path reaches other names or types."
  },
  {
   "property": "C75",
   "status": "partial",
   "theorems": [
    "C75_msgpack_partial",
    "C75_msgpack_unnoticed_refuted",
    "C75_json_partial",
    "C75_ndjson_partial",
    "C75_unnoticed_refuted",
    "C75_other_format_partial",
    "C75_no_array_refuted"
   ],
   "note": "However the bytes are cut, reading yields the first records unchanged, and a stream in the other format is refused; but that a reader can tell is refuted: a JSON array without its end reads as complete, a JSON document need not be an array, and a MessagePack stream cut at some places inside a record reads as complete."
  },
  {
   "property": "C76",
   "status": "partial",
   "theorems": [
    "C76_gcm",
    "C76_chacha",
    "C76_cbc_refuted"
   ],
   "note": "Proved for AES-GCM and XChaCha20-Poly1305 under the law that the AEAD opens only what it sealed. False for AES-CBC: C76_cbc_refuted alters any cipher text undetected."
  },
  {
   "property": "C77",
   "status": "partial",
   "theorems": [
    "C77_covers_partial",
    "C77_apart",
    "C77_targets_are_strings",
    "C77_refused",
    "C77_several_names_refuted",
    "C77_shared_target_refuted",
    "C77_no_subject_refuted"
   ],
   "note": "Proved for declarations with one name per field and a target per serialized field; several names under one tag, shared targets and a missing subject leave personal data in the clear without an error (_refuted)."
  },
  {
   "property": "C78",
   "status": "partial",
   "theorems": [
    "C78_subscribers",
    "C78_reading_stops_refuted"
   ],
   "note": "Holds for decrypting subscribers. Refuted for reading: the iterator stops with ErrKeyWasDeleted at the first record of a deleted subject and never reaches what follows, for every history."
  },
  {
   "property": "C79",
   "status": "proved",
   "theorems": [
    "C79_only_saved"
   ],
   "note": "Over all schedules of the subscription machine, including time-outs, failing reads, stops and deletions."
  },
  {
   "property": "C80",
   "status": "partial",
   "theorems": [
    "C80_in_order_partial",
    "C80_misses_nothing_partial",
    "C80_live_partial",
    "C80_cut_off",
    "C80_slow_clients_refuted",
    "C80_repeated_type_refuted"
   ],
   "note": "C80_in_order_partial, C80_misses_nothing_partial and C80_live_partial hold over all schedules, for distinct types (completeness of the catch-up for all events or one type) while neither broadcaster timed out on the relay or the client and saves hand over in turn. Missing because false: C80_slow_clients_refuted (two clients that stop reading make the store's broadcaster drop the API's own subscription, after which C80_cut_off shows no live client is ever sent anything new), C80_repeated_type_refuted (a type named twice is sent twice). The WebSocket frames themselves are not modelled: a record counts as sent when the client's handler writes it."
  },
  {
   "property": "C81",
   "status": "partial",
   "theorems": [
    "C81_types_partial",
    "C81_all_events",
    "C81_bad_numbers",
    "C81_nothing_else",
    "C81_other_types_refuted"
   ],
   "note": "C81_types_partial, C81_all_events, C81_bad_numbers and C81_nothing_else cover every path and parameter. Missing because false: C81_other_types_refuted, a type with any character but ASCII letters and hyphens cannot be subscribed to."
  },
  {
   "property": "C82",
   "status": "partial",
   "theorems": [
    "C82_in_order_partial",
    "C82_live_partial",
    "C82_misses_nothing_partial",
    "C82_dropped_for_good",
    "C82_told_refuted"
   ],
   "note": "Full statement refuted: C82_told_refuted (a caller slow for a while is dropped, is never sent anything again and its call does not end; C82_dropped_for_good for every continuation). Proved: order for every schedule; nothing missed by live calls and by calls from a number on, as long as no broadcaster times out on the way (with in-memory stores: saves hand over in turn). Calls for several types: in order, live completeness by C80_live_partial; the catch-up over several types is C22."
  },
  {
   "property": "C83",
   "status": "partial",
   "theorems": [
    "C83_in_order_partial",
    "C83_misses_nothing_partial",
    "C83_live_partial",
    "C83_started_too_early_refuted",
    "C83_feed_ended_refuted",
    "C83_unknown_event_refuted"
   ],
   "note": "Full statement refuted: C83_started_too_early_refuted (New returns before the server has taken the feed's call), C83_feed_ended_refuted and C83_unknown_event_refuted (nothing after a lost connection or an event that cannot be converted, in every continuation). Proved for every schedule: order; and that nothing is missed if the subscription starts after the call was taken and nothing on the way timed out or ended."
  },
  {
   "property": "C84",
   "status": "proved",
   "theorems": [
    "C84_never_a_gap",
    "C84_never_a_gap_once_live",
    "C84_several_types_refuted"
   ],
   "note": "C84_never_a_gap (StartFrom) and C84_never_a_gap_once_live (Start) hold of every schedule, also after the subscriber was dropped; C84_several_types_refuted: a subscription to several types can have a gap after a time-out."
  },
  {
   "property": "C85",
   "status": "proved",
   "theorems": [
    "C85_only_what_was_asked"
   ],
   "note": "C85_only_what_was_asked, for every schedule, any queries and any failures."
  },
  {
   "property": "C86",
   "status": "proved",
   "theorems": [
    "C86_at_rest_it_is_right",
    "C86_comes_to_rest",
    "C86_never_less",
    "C86_never_ahead",
    "C86_true_at_some_moment",
    "C86_shows_the_store"
   ],
   "note": "C86_at_rest_it_is_right, C86_comes_to_rest (bound 2*types+10 calls), C86_never_less, C86_never_ahead, C86_true_at_some_moment; C86_shows_the_store joins it with the projection's subscription."
  },
  {
   "property": "C87",
   "status": "partial",
   "theorems": [
    "C87_adds_up_refuted",
    "C87_adds_up_partial",
    "C87_abandoned_page_refuted"
   ],
   "note": "Refuted: C87_adds_up_refuted (torn read), C87_abandoned_page_refuted (for every handler at rest). Guarded: C87_adds_up_partial, for messages that tell of one moment (which C86 gives at rest)."
  },
  {
   "property": "C88",
   "status": "partial",
   "theorems": [
    "C88_counts_partial",
    "C88_counts_refuted",
    "C88_two_reads_refuted"
   ],
   "note": "C88_counts_refuted: whenever the last event counted is of the type, it is sent again and every total is one too many; C88_two_reads_refuted. Guarded: C88_counts_partial, exact totals at every moment of every schedule otherwise."
  },
  {
   "property": "C89",
   "status": "partial",
   "theorems": [
    "C89_no_gap_partial",
    "C89_caught_up_partial",
    "C89_in_order_partial",
    "C89_exactly_once_refuted",
    "C89_several_types_refuted",
    "C89_failing_read_refuted"
   ],
   "note": "Proved for every schedule: with one event type and reads that do not fail nothing is missed, the events are in order and a client that has had everything delivered is caught up (C89_no_gap_partial, C89_caught_up_partial, C89_in_order_partial). Exactly once is refuted universally: after each reconnection the last event is printed again (C89_exactly_once_refuted). C89_several_types_refuted and C89_failing_read_refuted: otherwise events can be missed for good."
  },
  {
   "property": "C90",
   "status": "partial",
   "theorems": [
    "C90_expected_partial",
    "C90_exactly_partial",
    "C90_nothing_partial",
    "C90_inspect_partial",
    "C90_inspect_order_refuted",
    "C90_other_streams_refuted",
    "C90_order_refuted",
    "C90_failing_read_refuted",
    "C90_used_store_refuted"
   ],
   "note": "On an empty store with all types bound passing is characterised exactly (C90_expected_partial, C90_exactly_partial, C90_nothing_partial, C90_inspect_partial). Refuted: events raised in other streams are never noticed, the order between streams is not checked, a read that fails passes, a used store gives wrong verdicts, and ThenInspectEvents gets the events in no fixed order."
  },
  {
   "property": "C91",
   "status": "partial",
   "theorems": [
    "C91_graceful_partial",
    "C91_cut_off_refuted",
    "C91_cut_off_always_refuted",
    "C91_grpc_refuted",
    "C91_grpc_never_refuted",
    "C91_term_refuted"
   ],
   "note": "C91_graceful_partial: if the process ends by main returning, status 0, store closed, every HTTP request answered. Refuted: the goroutine serving HTTP can end the process from the moment Shutdown has begun, in every interrupted run (C91_cut_off_refuted, C91_cut_off_always_refuted); gRPC calls are cut off (C91_grpc_refuted, C91_grpc_never_refuted); SIGTERM ends the process at once (C91_term_refuted)."
  },
  {
   "property": "C92",
   "status": "partial",
   "theorems": [
    "C92_dsn_partial",
    "C92_dsn_apart_partial",
    "C92_empty_password_refuted",
    "C92_space_refuted"
   ],
   "note": "C92_dsn_partial for plain values and C92_dsn_apart_partial; refuted universally for an empty password (C92_empty_password_refuted) and for white space (C92_space_refuted)."
  },
  {
   "property": "C93",
   "status": "partial",
   "theorems": [
    "C93_leveldb_partial",
    "C93_memory_partial",
    "C93_overruled_refuted",
    "C93_snapshots_apart_partial",
    "C93_snapshots_shared_refuted",
    "C93_snapshots_cwd_refuted",
    "C93_password_refuted"
   ],
   "note": "C93_leveldb_partial, C93_memory_partial and C93_snapshots_apart_partial. Refuted: the environment overrules -levelDBPath (C93_overruled_refuted), relative paths share snapshots (C93_snapshots_shared_refuted, C93_snapshots_cwd_refuted), the password is part of a directory name (C93_password_refuted)."
  },
  {
   "property": "C94",
   "status": "partial",
   "theorems": [
    "C94_handle_partial",
    "C94_apply_partial",
    "C94_command_types_partial",
    "C94_methods_differ_partial",
    "C94_commands_of_file_partial",
    "C94_refuses_nothing_partial",
    "C94_keywords_refuted",
    "C94_reserved_refuted",
    "C94_not_utf8_refuted",
    "C94_file_refuted"
   ],
   "note": "Proved for names that begin with A to Z: Handle and apply call the method of each command or event by value and by pointer, and nothing else; CommandTypes is complete; methods differ. Refuted: every Go keyword is the method of some command, Raise/ResetPendingEvents/Apply collide with generated methods, names above ASCII give text that is not UTF-8, struct types inside functions are taken for commands. Whether the text compiles otherwise is outside the model."
  },
  {
   "property": "C95",
   "status": "partial",
   "theorems": [
    "C95_commands_partial",
    "C95_quoting_refuted",
    "C95_binder_partial"
   ],
   "note": "Proved for aggregate types without quote, backslash or newline, and for the event binder. Refuted for every aggregate type with a quote or a backslash: no command returns it."
  },
  {
   "property": "C96",
   "status": "partial",
   "theorems": [
    "C96_cells_partial",
    "C96_no_markup",
    "C96_nul_refuted",
    "C96_stream_link_partial",
    "C96_stream_link_refuted",
    "C96_type_link_partial",
    "C96_page_links_partial",
    "C96_totals_partial",
    "C96_totals_refuted",
    "C96_data_cell_partial",
    "C96_data_cells_differ_partial",
    "C96_refused_data_refuted"
   ],
   "note": "Cells read back for every text without byte 0 (refuted with it); the data cell is a JSON text of the data, whatever bytes its strings stand for (C96_data_cell_partial: strings that are UTF-8, at most 10000 levels), and is empty if json.Marshal refuses the data (C96_refused_data_refuted); no markup for any record, type and page links, totals below 2^63. Row links lead to the stream exactly for names without ?, # and percent escapes; refuted for every other name (C96_stream_link_refuted). Totals from 2^63 on are shown negative (C96_totals_refuted). How dates are written is C108."
  },
  {
   "property": "C97",
   "status": "proved",
   "theorems": [
    "C97_newest_ten",
    "C97_newest_ten_first",
    "C97_between"
   ],
   "note": "For every history of messages and lost connections."
  },
  {
   "property": "C98",
   "status": "partial",
   "theorems": [
    "C98_http_history",
    "C98_posted_is_read",
    "C98_http_history_leveldb_partial"
   ],
   "note": "Full for the in-memory store with a serializer that encodes everything; on LevelDB as long as no delete is refused and names hold no \"$!\". Requests one after the other, not cancelled, a batch of one aggregate; empty and mixed batches are C38's refutations."
  },
  {
   "property": "C99",
   "status": "partial",
   "theorems": [
    "C99_inmemory_done_before",
    "C99_inmemory_never_done",
    "C99_leveldb_done_before_partial",
    "C99_leveldb_delete_done_before",
    "C99_leveldb_save_blocks_refuted",
    "C99_leveldb_never_done",
    "C99_remote_done_before",
    "C99_remote_never_done_partial",
    "C99_eventstore_done_before_partial",
    "C99_eventstore_conflict_refuted",
    "C99_eventstore_never_done",
    "C99_eventstore_cancelled_did_nothing_partial",
    "C99_eventstore_in_flight_refuted"
   ],
   "note": "Full for the in-memory store; LevelDB saves as long as no delete was refused (C99_leveldb_save_blocks_refuted shows why); remote store for any store behind it, provided no error text of the server's says \"context canceled\". EventStore: deletes, counts and saves that expect no number or 0; a save expecting another number is told of a conflict instead (C99_eventstore_conflict_refuted); there, also, a call told that it was cancelled at any point has changed nothing in any run, unless the answer to its request was lost (C99_eventstore_in_flight_refuted). Postgres is not covered: its model has cancellation only as one of the failures of a statement."
  },
  {
   "property": "C100",
   "status": "partial",
   "theorems": [
    "C100_lives_partial",
    "C100_acknowledged_is_durable_partial",
    "C100_every_request_is_answered_refuted"
   ],
   "note": "C100_lives_partial: any requests, crashes and restarts, names without \"$!\", fewer than 2^64 events. C100_acknowledged_is_durable_partial: a 201 survives. Missing: 'every request is answered' is false (C100_every_request_is_answered_refuted: after a refused delete, until the restart); requests come one after the other; that LevelDB itself keeps committed transactions is assumed."
  },
  {
   "property": "C101",
   "status": "partial",
   "theorems": [
    "C101_reads",
    "C101_whole_texts",
    "C101_unambiguous",
    "C101_written",
    "C101_json_partial",
    "C101_ndjson_partial",
    "C101_no_record_partial",
    "C101_serializer_partial",
    "C101_last_member_refuted"
   ],
   "note": "Which texts are read and as what is proved in full, both ways (C101_reads, C101_whole_texts, C101_unambiguous, C101_written). Records are proved for objects in which no two members mean the same field; with two of them the last one counts unless it is null (C101_last_member_refuted). Go folds two letters outside ASCII to k and s in names; that is not modelled."
  },
  {
   "property": "C102",
   "status": "partial",
   "theorems": [
    "C102_bytes",
    "C102_bytes_leveldb_partial",
    "C102_posted_is_read",
    "C102_null_data_refuted"
   ],
   "note": "The bytes of all answers to any sequence of requests, in front of an in-memory store (C102_bytes) and of LevelDB without refused deletes and without names holding \"$!\" (C102_bytes_leveldb_partial); the array read after a post is the one before it with the new objects behind (C102_posted_is_read). Events must have data: with null data refuted (C102_null_data_refuted). How a float64 is written is left open; msgpack pages are any bytes here (C87, C100). Bodies that begin with a number cut off inside it, such as \"1.\", are not covered."
  },
  {
   "property": "C103",
   "status": "partial",
   "theorems": [
    "C103_in_memory",
    "C103_leveldb_partial",
    "C103_crashes_partial",
    "C103_any_serializer",
    "C103_null_data_refuted",
    "C103_bad_name_refuted"
   ],
   "note": "C103_in_memory, C103_leveldb_partial and C103_crashes_partial hold of the real JSON serializer for events with UTF-8 names and data that is not null; C103_any_serializer transfers every theorem about codecs with laws to it. C103_null_data_refuted and C103_bad_name_refuted show that the conditions are needed. LevelDB: calls that return (after a refused delete saves hang, C18), names without \"$!\"."
  },
  {
   "property": "C104",
   "status": "partial",
   "theorems": [
    "C104_chronicles_partial",
    "C104_acknowledged_is_durable_partial"
   ],
   "note": "C104_chronicles_partial: any requests, crashes and restarts, down to the bytes; C104_acknowledged_is_durable_partial: what was answered with 201 is in every later array. Names without \"$!\", events with data (C102_null_data_refuted), requests one after the other. 'Every request is answered' is false (C100_every_request_is_answered_refuted; the Silence in C104_inhabited)."
  },
  {
   "property": "C105",
   "status": "partial",
   "theorems": [
    "C105_http_partial",
    "C105_http_leveldb_partial",
    "C105_bytes_partial",
    "C105_bytes_leveldb_partial",
    "C105_several_types_refuted",
    "C105_several_types_leveldb_refuted"
   ],
   "note": "Proved for both stores, for the records and for the bytes of the answers, under the condition that reads name at most one aggregate type (as in C57); for several types refuted with a witness on both stores. LevelDB: names without $!. A read whose client goes away is not answered."
  },
  {
   "property": "C106",
   "status": "partial",
   "theorems": [
    "C106_one_reading",
    "C106_beginning",
    "C106_wellformed_partial",
    "C106_any_reader_partial",
    "C106_cut_off_partial",
    "C106_equal_bytes_partial",
    "C106_equal_data_refuted"
   ],
   "note": "Well-formedness and the one possible reading are proved for values whose texts, arrays and maps have fewer than 2^32 parts; unambiguity of the format itself (C106_one_reading, C106_beginning) without restriction. Equal bytes with different data are exhibited (C106_equal_data_refuted)."
  },
  {
   "property": "C107",
   "status": "proved",
   "theorems": [
    "C107_same_value",
    "C107_only_white_space",
    "C107_one_layout",
    "C107_once_is_enough",
    "C107_no_json"
   ],
   "note": "For every byte string. Modelled: the loop of json.Indent (Go 1.16) on valid texts; which texts are valid is the grammar of C101, including the limit of 10000 open brackets."
  },
  {
   "property": "C108",
   "status": "partial",
   "theorems": [
    "C108_date_partial",
    "C108_one_second",
    "C108_distinct_partial",
    "C108_large_refuted"
   ],
   "note": "Proved for all timestamps below 9223372044994230016 (the year 292277026854); above that the date is before 1970 (C108_large_refuted). C108_one_second, about dates as such, has no restriction."
  },
  {
   "property": "C109",
   "status": "partial",
   "theorems": [
    "C109_times_in_memory",
    "C109_times_leveldb_partial",
    "C109_ids_in_memory",
    "C109_ids_leveldb_partial",
    "C109_numbers_in_memory",
    "C109_numbers_leveldb_partial",
    "C109_sequential_clock",
    "C109_seeded_clock",
    "C109_seeded_clock_refuted"
   ],
   "note": "Full for the in-memory store (every history); LevelDB, with crashes, for names without \"$!\" and fewer than 2^64 events. With a clock that goes back the claim about times fails (C109_seeded_clock_refuted). Calls one after the other."
  },
  {
   "property": "C110",
   "status": "partial",
   "theorems": [
    "C110_in_memory_overlapping_partial",
    "C110_leveldb_overlapping_partial",
    "C110_postgres_overlapping_partial",
    "C110_save_in_memory",
    "C110_delete_in_memory",
    "C110_save_leveldb_partial",
    "C110_delete_leveldb_refuted",
    "C110_eventstore_partial",
    "C110_eventstore_zero_refuted",
    "C110_eventstore_hidden_refuted",
    "C110_postgres_partial",
    "C110_save_remote",
    "C110_delete_remote_partial"
   ],
   "note": "Full for the in-memory store (tame histories, as in C09), also for a caller of the remote store in front of it (C110_save_remote; deletes if no other error's text holds the marker words). LevelDB: saves only, no delete refused before and names without \"$!\"; deletes are refuted for every state (C110_delete_leveldb_refuted). PostgreSQL: calls one after the other, without metadata, not more than connections; that other numbers are refused is in C60. EventStore: from any state for a number other than 0 and streams without hidden events; otherwise refuted (C110_eventstore_zero_refuted, C110_eventstore_hidden_refuted). For PostgreSQL with any overlapping, failures and deletes, C110_postgres_overlapping_partial: the number told was the largest stored of the stream at a moment when the call was under way (that a retry then succeeds is said only for calls one after the other). In memory and LevelDB with overlapping calls (C110_in_memory_overlapping_partial, C110_leveldb_overlapping_partial): the number told is that of the stream after calls that may have come first."
  },
  {
   "property": "C111",
   "status": "partial",
   "theorems": [
    "C111_in_memory",
    "C111_leveldb_partial",
    "C111_postgres_partial",
    "C111_eventstore_refuted",
    "C111_in_memory_overlapping_partial",
    "C111_leveldb_overlapping_partial",
    "C111_postgres_lost_confirmation_refuted",
    "C111_postgres_overlapping_partial",
    "C111_postgres_learned_partial"
   ],
   "note": "In memory for every history of calls with batches of one aggregate (C111_in_memory); LevelDB while no delete was refused, names without \"$!\"; PostgreSQL for calls one after the other. Refuted for EventStore (C111_eventstore_refuted), and for PostgreSQL when the confirmation of a commit gets lost (C111_postgres_lost_confirmation_refuted). For overlapping calls under every schedule and cancellation, C111_in_memory_overlapping_partial and C111_leveldb_overlapping_partial: a conflict needs a change by another call not answered before the number was asked for and made before the conflict was told; reads of several aggregate types at once are left out, as in C57. C111_postgres_overlapping_partial: a conflict needs somebody else's save behind the learner's own, confirmed or answered with a database or decoding error; C111_postgres_learned_partial says it for numbers learned in any of the three ways; streams that are deleted are missing there."
  },
  {
   "property": "C112",
   "status": "partial",
   "theorems": [
    "C112_eventstore_answers_once",
    "C112_eventstore_never_waits_partial"
   ],
   "note": "Proved for every call made by the present process, after any number of earlier processes (a process that is replaced answers none of its calls). Iterations are one request each, so a reader that stops taking records is not covered, and the lock around the map of deleted streams is not modelled."
  }
 ]
}