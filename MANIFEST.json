{
 "claims": [
  {
   "property": "C01",
   "status": "proved",
   "theorems": [
    "C01_live_pages_disjoint_and_well_placed",
    "C01_new_page_disjoint_from_held"
   ],
   "note": "buddy allocator of lite and direct, any history of allocate/release/reserve"
  },
  {
   "property": "C02",
   "status": "proved",
   "theorems": [
    "C02_space_conserved_and_merged",
    "C02_release_of_held_page_succeeds",
    "C02_release_all_restores_fresh_state",
    "C02_state_depends_only_on_held_pages",
    "C02_allocated_bytes_metric"
   ],
   "note": "finding: the allocated-bytes metric also counts allocations that failed"
  },
  {
   "property": "C03",
   "status": "proved",
   "theorems": [
    "C03_allocate_fails_iff_no_page_fits",
    "C03_allocate_takes_smallest_and_outermost"
   ],
   "note": ""
  },
  {
   "property": "C04",
   "status": "proved",
   "theorems": [
    "C04_reserving_disjoint_pages_succeeds_in_any_order",
    "C04_reserved_pages_not_handed_out"
   ],
   "note": ""
  },
  {
   "property": "C05",
   "status": "partial",
   "theorems": [
    "C05_layout_covers_object",
    "C05_layout_4GiB_large_page_refuted"
   ],
   "note": "proved for large pages below 4 GiB and at most 2^24 small pages per large page; for 4 GiB large pages (the documented maximum) laying out some sizes panics, so the full statement is refuted there"
  },
  {
   "property": "C06",
   "status": "proved",
   "theorems": [
    "C06_packed_list_is_the_list",
    "C06_push_appends_or_refuses"
   ],
   "note": ""
  },
  {
   "property": "C07",
   "status": "partial",
   "theorems": [
    "C07_created_record_decodes",
    "C07_oversized_record_refused",
    "C07_updates_touch_one_field",
    "C07_size_beyond_40_bits_refuted"
   ],
   "note": "Holds for every request whose size is below 2^40; refuted for larger sizes, which create accepts but stores truncated."
  },
  {
   "property": "C08",
   "status": "proved",
   "theorems": [
    "C08_lite_read_returns_range",
    "C08_lite_read_after_upload"
   ],
   "note": "any range, any interleaving of concurrent part uploads; the stream is read before the object is deleted; empty ranges (hence zero-size objects) are rejected by the code"
  },
  {
   "property": "C09",
   "status": "partial",
   "theorems": [
    "C09_writes_touch_only_their_pages",
    "C09_successful_write_is_in_place",
    "C09_offset_overflow_refuted"
   ],
   "note": "proved for every offset with offset+large page < 2^64; without that bound the length checks wrap around and the tail pages are overwritten (refuted)"
  },
  {
   "property": "C10",
   "status": "partial",
   "theorems": [
    "C10_exact_stream_succeeds",
    "C10_overlong_stream_rejected",
    "C10_failing_stream_rejected",
    "C10_truncated_at_page_boundary_rejected",
    "C10_rejections_have_a_reason",
    "C10_truncated_stream_refuted",
    "C10_trailing_empty_chunk_refuted"
   ],
   "note": "full statement refuted: every stream truncated inside a page makes the call spin for ever, and an empty chunk after the last byte panics; proved for failing, overlong, exact and boundary-truncated streams; every rejection has one of the documented reasons, and a call rejected for its range changes nothing"
  },
  {
   "property": "C11",
   "status": "proved",
   "theorems": [
    "C11_merged_writes_equal_sequential",
    "C11_merged_writes_disjoint"
   ],
   "note": "All lists of writes, all orders of the merged entries."
  },
  {
   "property": "C12",
   "status": "partial",
   "theorems": [
    "C12_acknowledged_applied_partial",
    "C12_journal_stays_in_its_region",
    "C12_crash_atomicity_refuted",
    "C12_replacement_loses_both_versions_refuted"
   ],
   "note": "Acknowledged transactions are applied at every moment and a crash outside the entry-writing window leaves a whole prefix; whole-or-nothing inside that window is refuted because recover() is an unimplemented TODO; on the whole store a crash during a replacement loses both versions."
  },
  {
   "property": "C13",
   "status": "proved",
   "theorems": [
    "C13_sequential_operations_refine_keyed_store",
    "C13_lookups_end",
    "C13_example"
   ],
   "note": "Versioning off. Operations one after another, with arbitrary journal flush steps in between, every hash function (hence every collision pattern) and bucket count: the observations are those of the keyed store LiteSpec (which also covers read/write of object bytes); no operation panics or fails to end."
  },
  {
   "property": "C14",
   "status": "partial",
   "theorems": [
    "C14_calm_histories_keep_the_store_partial",
    "C14_deleted_object_comes_back_refuted",
    "C14_lookups_never_end_refuted",
    "C14_late_mark_hits_next_owner_refuted",
    "C14_lookup_across_a_flush_refuted"
   ],
   "note": "Proved for every interleaving in which no call removes a non-head object of a bucket while another call on that bucket still waits for the journal; refuted otherwise: a deleted object comes back, a chain becomes cyclic, a late commit mark commits the next owner of the page, a lookup spanning a flush misses a present object."
  },
  {
   "property": "C15",
   "status": "partial",
   "theorems": [
    "C15_empty_store_reopens",
    "C15_small_device_reserves_nothing_refuted",
    "C15_reopened_store_overwrites_objects_refuted",
    "C15_record_pages_not_reserved_refuted",
    "C15_open_panics_refuted"
   ],
   "note": "Only the empty store reopens correctly; the loader shifts bucket heads the wrong way and never reserves record pages: small devices reserve nothing (proved for all calm histories), new objects overwrite old ones, larger devices panic while opening."
  },
  {
   "property": "C16",
   "status": "partial",
   "theorems": [
    "C16_direct_regions_inside_and_disjoint",
    "C16_direct_pages_inside",
    "C16_lite_regions_partial",
    "C16_lite_heap_beyond_device_refuted",
    "C16_lite_tiny_device_refuted",
    "C16_kv_regions_partial",
    "C16_kv_heap_overlaps_log_refuted"
   ],
   "note": "Proved for direct. Lite: disjointness always, inside the device only when the remainder is a whole number of large pages (refuted otherwise). KV: everything but heap/log-data disjointness, which is refuted for every accepted configuration."
  },
  {
   "property": "C17",
   "status": "proved",
   "theorems": [
    "C17_index_page_round_trip",
    "C17_index_area_round_trip"
   ],
   "note": "Page codec and whole-area codec."
  },
  {
   "property": "C18",
   "status": "proved",
   "theorems": [
    "C18_index_pages_hold_exactly_the_objects",
    "C18_update_and_delete_never_fail"
   ],
   "note": "All interleavings of calls and flush steps from any opened index."
  },
  {
   "property": "C19",
   "status": "proved",
   "theorems": [
    "C19_acknowledged_calls_are_durable"
   ],
   "note": "Every prefix of every interleaving; a page write is one atomic step; ids are fresh (random u128). Includes that reopening succeeds."
  },
  {
   "property": "C20",
   "status": "partial",
   "theorems": [
    "C20_create_succeeds_partial",
    "C20_create_after_delete_refuted"
   ],
   "note": "The full statement is false of the code: a deletion does not return its page to free_bundles (tuples.rs:130-145). Proved: creation succeeds while stored + deletions since opening < capacity."
  },
  {
   "property": "C21",
   "status": "proved",
   "theorems": [
    "C21_calls_behave_like_a_map",
    "C21_concurrent_calls_take_effect_atomically",
    "C21_other_keys_untouched",
    "C21_commit_publishes",
    "C21_commit_if_not_exists",
    "C21_delete_removes",
    "C21_example"
   ],
   "note": "Every trace of the fine-grained concurrent model (index flusher, device writes, locks, allocator) refines a small concurrent specification, and, when calls do not overlap, a sequential map specification (DirectSeqSpec.v). Reclaiming of the space of replaced objects is C24."
  },
  {
   "property": "C22",
   "status": "proved",
   "theorems": [
    "C22_direct_read_returns_range",
    "C22_direct_read_after_upload",
    "C22_zero_stream_buffer_refuted"
   ],
   "note": "for every positive stream buffer size; size 0 loops for ever"
  },
  {
   "property": "C23",
   "status": "partial",
   "theorems": [
    "C23_committed_bytes_never_change_partial",
    "C23_objects_have_one_content",
    "C23_example",
    "C23_dropped_write_changes_committed_object_refuted"
   ],
   "note": "Proved for every interleaving of calls that run to completion. Refuted for write calls whose future is dropped (client disconnects) while the device write is in flight: the write guard is released, the commit returns, and the write still lands."
  },
  {
   "property": "C24",
   "status": "partial",
   "theorems": [
    "C24_space_is_exactly_that_of_the_objects_partial",
    "C24_objects_never_overlap",
    "C24_record_exact_iff",
    "C24_metadata_space_leaks_refuted",
    "C24_creation_fails_in_empty_partition_refuted",
    "C24_example"
   ],
   "note": "The full property is refuted: for metadata records of e.g. 3 small pages the recorded exponent is too small (create_object.rs:74-90), so space leaks until creation panics in an empty partition. Proved: exactness for every history in which records need a power of two of small pages and no call panicked; objects never overlap in all histories."
  },
  {
   "property": "C25",
   "status": "partial",
   "theorems": [
    "C25_opening_succeeds_partial",
    "C25_any_crash_partial",
    "C25_sessions_partial",
    "C25_sessions_go_on_partial",
    "C25_space_partial",
    "C25_acknowledged_commit_lost_refuted",
    "C25_long_key_prevents_opening_refuted",
    "C25_second_crash_prevents_opening_refuted",
    "C25_deleted_object_back_refuted",
    "C25_example"
   ],
   "note": "Proved for all histories without panics and with exact metadata exponents: opening succeeds for every processing order. After a kill anywhere in the last of any number of settled sessions: every upload survives with what was written; what no unfinished call was removing or publishing is there unchanged; an object that is back has exactly the id, size, time and bytes its key once had, is being removed by an unfinished call, and wins only with a greater id; an object whose commit had not returned may be an upload again with all its bytes; a replacement never loses both objects unless the replaced one's commit had not returned either; clients then see a behaviour of the specification from that state. With all commits and deletes returned, committed objects, uploads and reserved space are restored exactly, over any number of sessions. The full property is false of the code: four machine-checked counterexamples (acknowledged commit lost because ids are random; a three-page metadata record makes opening panic; a second crash makes opening panic; a deleted object comes back)."
  },
  {
   "property": "C26",
   "status": "partial",
   "theorems": [
    "C26_reads_of_existing_objects_partial",
    "C26_read_returns_bytes_of_another_object_refuted",
    "C23_example"
   ],
   "note": "Refuted: a deleted object is never marked, so a read stream that overlaps a delete and a re-use of the space returns the bytes of another object without an error. Proved: everything read while the object exists is its content."
  },
  {
   "property": "C27",
   "status": "partial",
   "theorems": [
    "C27_counters_right_when_idle_partial",
    "C27_counters_off_by_calls_under_way_partial",
    "C27_committed_count_goes_negative_refuted",
    "C27_counters_stay_wrong_after_panic_refuted",
    "C27_example",
    "C27_lite_object_counters_partial",
    "C27_lite_metadata_bytes_refuted",
    "C27_lite_incomplete_count_refuted",
    "C27_lite_example",
    "C27_counters_after_opening_partial",
    "C27_bytes_too_high_after_opening_refuted",
    "C27_counters_right_in_every_session_partial",
    "C27_counters_off_by_calls_under_way_in_sessions_partial",
    "C27_opening_example"
   ],
   "note": "Direct store: exact whenever no call is under way and none panicked; in between off by at most the calls under way, bytes and uploads never too low. The full property is refuted: the committed count is transiently -1 (2^64-1) when a deletion overtakes the end of a commit, and stays wrong after a deletion that panics. Lite store: in every calm history the object count is never too high and too low by at most the calls under way, and count and data bytes are exact when idle; refuted for metadata bytes (record bytes added, page size subtracted: an empty store reports 2^64-210) and for the incomplete-object count (never changed by an operation). After opening: the numbers are right and the bytes never too low, exact unless the device held two committed objects with one key (then the bytes of the replaced one stay counted: refuted). The exactness when idle and the bounds in between are also proved for every session after any number of crashes at which no commit or deletion was under way."
  },
  {
   "property": "C28",
   "status": "partial",
   "theorems": [
    "C28_export_partial",
    "C28_export_any_crash_partial",
    "C28_resume",
    "C28_replaced_object_exported_refuted",
    "C28_example"
   ],
   "note": "Proved for any number of partitions, any sessions without panics and with exact metadata exponents: if every commit and delete had returned, an export yields exactly the committed objects at or after the marker, once each, in marker order, with their key, size, creation time and bytes; resuming is exact without that condition; after a kill in the middle of commits and deletes, every exported object is one its key had, with the same size, creation time and bytes, and is either committed or being removed by an unfinished call, and every committed object is exported unless its own commit had not returned. The full property is false when a commit is interrupted: an object replaced long before is exported too, after the current one (counterexample)."
  },
  {
   "property": "C29",
   "status": "proved",
   "theorems": [
    "C29_index_page_round_trip",
    "C29_overfull_page_refused",
    "C29_api_keys",
    "C29_page_of_key"
   ],
   "note": "Round trip for every list of entries with non-empty keys that fits, incl. exactly full pages; overfull pages are refused (panic). blake3 is a parameter."
  },
  {
   "property": "C30",
   "status": "partial",
   "theorems": [
    "C30_empty_key_hides_others_refuted",
    "C30_entries_before_empty_key_partial"
   ],
   "note": "Refuted for the empty key (its length byte is the end marker): entries after it are lost. Proved: exactly the entries before it survive; C29 covers pages without it."
  },
  {
   "property": "C31",
   "status": "partial",
   "theorems": [
    "C31_formatted_log_is_empty",
    "C31_replay_yields_flushed_operations",
    "C31_wide_wrap_refuted",
    "C31_misaligned_log_refuted"
   ],
   "note": "Proved for every run (torn writes, any completion order, commits, crashes, re-openings) when the log length is a whole number of pages and no batch exceeds the 128 MiB replay buffer; both conditions are shown necessary (the code checks neither)."
  },
  {
   "property": "C32",
   "status": "proved",
   "theorems": [
    "C32_flush_never_overwrites_live_log",
    "C32_device_changes_only_where_flushes_write"
   ],
   "note": "Log length assumed to be a whole number of pages."
  },
  {
   "property": "C33",
   "status": "proved",
   "theorems": [
    "C33_acknowledged_records_on_device",
    "C33_acknowledged_in_log_order",
    "C33_crash_keeps_acknowledged"
   ],
   "note": "A completed device write is taken to be durable (the code never syncs)."
  },
  {
   "property": "C34",
   "status": "partial",
   "theorems": [
    "C34_read_returns_latest_partial",
    "C34_concurrent_read_of_quiet_key_partial",
    "C34_concurrent_lookup_linearizable_partial",
    "C34_index_update_fails_iff_page_full",
    "C34_C36_example",
    "C34_full_index_page_loses_writes_refuted",
    "C34_empty_key_hides_others_refuted",
    "C34_read_of_released_space_refuted"
   ],
   "note": "Holds in every reachable state of the modelled store (writes, deletes, log flushes, acknowledgements, each step of a commit, crashes with no heap address in the log) as long as no index page has overflowed, keys are not empty and long keys do not collide; and for reads interleaved with other steps. False otherwise: an overflowing index page loses acknowledged writes, the empty key hides entries, and a read racing with the release of its value returns another key's bytes; each refuted by a concrete run."
  },
  {
   "property": "C35",
   "status": "partial",
   "theorems": [
    "C35_crash_keeps_acknowledged_partial",
    "C35_crash_while_opening",
    "C35_repeated_commit_frees_live_value_refuted",
    "C35_store_cannot_be_opened_refuted",
    "C36_reopening_forgets_values_in_log_refuted"
   ],
   "note": "Power loss at every reachable state (between any two device writes, heap writes torn): opening succeeds and shows exactly the operations before the persisted tail, all acknowledged ones among them. The state reached afterwards is sound only if the log held no heap address; otherwise the run goes wrong later, shown by concrete runs."
  },
  {
   "property": "C36",
   "status": "partial",
   "theorems": [
    "C36_values_own_their_space_partial",
    "C34_C36_example",
    "C36_reopening_forgets_values_in_log_refuted"
   ],
   "note": "Readable values, values being written and values being moved own pairwise disjoint heap space in every reachable state; false after reopening with a heap address in the log (refuted by a concrete run)."
  },
  {
   "property": "C37",
   "status": "partial",
   "theorems": [
    "C37_live_extents_disjoint_and_inside",
    "C37_new_extent_disjoint_from_held",
    "C37_space_conserved",
    "C37_release_returns_everything",
    "C37_allocate_fails_iff_nothing_fits",
    "C37_reserving_disjoint_extents_succeeds",
    "C37_allocated_bytes_partial",
    "C37_allocated_bytes_refuted"
   ],
   "note": "Everything holds except the reported counter: release lowers it by a variable its loop has brought to zero (allocator.rs:181-185), so it is the total ever obtained."
  },
  {
   "property": "C38",
   "status": "proved",
   "theorems": [
    "C38_range_read_returns_slice",
    "C38_stored_value_is_readable"
   ],
   "note": "Inline and heap values, every range and alignment; also storing a value keeps all held ones readable."
  },
  {
   "property": "C39",
   "status": "proved",
   "theorems": [
    "C39_token_accepted_iff_issued_and_unexpired",
    "C39_token_grants_exactly_its_action"
   ],
   "note": "MAC (blake3 keyed hash) is a universally quantified function; the hypotheses on it (32-byte output, unforgeability as a set of issued messages) appear in the statement."
  },
  {
   "property": "C40",
   "status": "partial",
   "theorems": [
    "C40_commit_with_own_token_needs_every_part_partial",
    "C40_any_commit_partial",
    "C40_recombined_token_refuted",
    "C40_commit_without_a_part_refuted",
    "C40_complete_upload_is_accepted"
   ],
   "note": "The full statement is false of the code: receipts and upload tokens are MACs of the same pair shape without domain separation, so a write receipt is itself a valid upload token and a commit can be assembled without writing a part (refuted theorems). Partial: with the upload's own token every part's receipt is needed."
  },
  {
   "property": "C41",
   "status": "partial",
   "theorems": [
    "C41_closed_range",
    "C41_open_range",
    "C41_no_range",
    "C41_headers_describe_body",
    "C41_out_of_bounds_rejected",
    "C41_multiple_ranges_rejected",
    "C41_suffix_range_refuted",
    "C41_last_position_overflow_refuted",
    "C41_empty_body_content_range_refuted"
   ],
   "note": "Closed, open and missing ranges proved; suffix ranges, last position u64::MAX and the Content-Range of an empty body are refuted."
  },
  {
   "property": "C42",
   "status": "proved",
   "theorems": [
    "C42_complete_body",
    "C42_truncated_body",
    "C42_count_is_number_committed",
    "C42_parts_are_the_data",
    "C42_long_key_refuted"
   ],
   "note": "For every list of entries the 2-byte key length field can express and every chunking. A key over 65535 bytes is framed with a truncated length by the JS client (refuted theorem)."
  },
  {
   "property": "C43",
   "status": "partial",
   "theorems": [
    "C43_js_key_partial",
    "C43_rust_key_partial",
    "C43_keys_refuted",
    "C43_js_range_partial",
    "C43_js_range_refuted",
    "C43_rust_range_refuted",
    "C43_rust_range_partial"
   ],
   "note": "False in general: keys with dot segments, and with ? # % backslash or trailing space from the Rust client, arrive changed; range end is inclusive on the wire but exclusive in the clients. Partial theorems give the exact agreeing sets."
  },
  {
   "property": "C44",
   "status": "partial",
   "theorems": [
    "C44_javascript_tokens_refuted",
    "C44_rust_tokens_partial"
   ],
   "note": "The JS serialiser differs from the server's, so its tokens are rejected; Rust client tokens are accepted."
  },
  {
   "property": "C45",
   "status": "partial",
   "theorems": [
    "C45_upload_not_bound_to_key_refuted",
    "C45_unauthorised_requests_rejected_partial"
   ],
   "note": "Upload tokens are not bound to a key: a holder of a token for A can write and commit an upload created for B (refuted). Partial: without an access token for the named key every request is rejected."
  },
  {
   "property": "C46",
   "status": "partial",
   "theorems": [
    "C46_operation_counters_partial",
    "C46_failed_writes_are_counted_refuted"
   ],
   "note": "Holds at every moment for create, commit, delete, inspect, read; refuted for writes, which are counted when they start."
  },
  {
   "property": "C47",
   "status": "partial",
   "theorems": [
    "C47_overwritten_value_never_freed_refuted",
    "C47_space_of_superseded_values_is_free_partial",
    "C47_example"
   ],
   "note": "Refuted in general: a large value overwritten or deleted before it is committed is never released until the store is reopened. Proved (PropertiesKvSpace.v) for every history in which, since the store was last opened, no operation taken by a commit overwrote an earlier large value taken by the same commit: when everything is committed, free space plus the space of current values of distinct keys is the whole heap, and the free lists are those a freshly opened store would have."
  },
  {
   "property": "C48",
   "status": "partial",
   "theorems": [
    "C48_commits_in_creation_order_partial",
    "C48_versioning_finds_last_created_refuted"
   ],
   "note": "Refuted in general: the version created last is found although another one was committed last. Proved for versions committed in the order of their creation, for all calm histories (no removal of a non-first object of a bucket while another call on the bucket waits for the journal)."
  },
  {
   "property": "C49",
   "status": "proved",
   "theorems": [
    "C49_partitions_behave_like_one_store",
    "C49_calls_one_after_another",
    "C49_calls_are_routed",
    "C49_example"
   ],
   "note": "Any hash function and number of partitions with equal large pages. A token is opaque; one the store did not make goes to any partition (one naming no partition panics; not modelled). Random ids do not repeat in the whole store."
  },
  {
   "property": "C50",
   "status": "proved",
   "theorems": [
    "C50_listing_shows_each_object_once",
    "C50_listing_one_after_another",
    "C49_example"
   ],
   "note": "The listing is taken at one moment; the code iterates over concurrent maps, so listing while calls run is documented as inconsistent."
  },
  {
   "property": "C51",
   "status": "proved",
   "theorems": [
    "C51_sharing_devices_changes_nothing",
    "C51_writes_stay_in_own_heap",
    "C51_example"
   ],
   "note": "Heap areas; the index area of a partition is a device of its own in the model."
  },
  {
   "property": "C52",
   "status": "partial",
   "theorems": [
    "C52_versions_store_partial",
    "C52_committed_version_stays_partial"
   ],
   "note": "For all calm histories (see C14; the excluded ones are refuted there). C52_example is a history the theorems apply to."
  },
  {
   "property": "C53",
   "status": "partial",
   "theorems": [
    "C53_space_is_that_of_the_objects_partial",
    "C53_example",
    "C54_lite_failed_creation_keeps_space_refuted"
   ],
   "note": "Proved for every calm history in which no creation failed for lack of space: free bytes plus the objects' needs are the heap, and an empty store's allocator equals a new one's. Missing: histories with a creation that failed for lack of space, where it is false, and histories that are not calm (C14)."
  },
  {
   "property": "C54",
   "status": "partial",
   "theorems": [
    "C54_lite_refused_creation_changes_nothing_partial",
    "C54_lite_failed_creation_keeps_space_refuted",
    "C54_direct_failed_creation_keeps_space_refuted",
    "C54_example"
   ],
   "note": "Refuted for both stores: a creation that panics for lack of space (or, direct, because its metadata is longer than a large page, which is checked after the data pages were taken) keeps the pages it took; one such call uses up the whole heap. Proved: a lite creation refused with an error changes nothing."
  },
  {
   "property": "C55",
   "status": "proved",
   "theorems": [
    "C55_server_is_an_object_store",
    "C55_uploaded_data_is_served",
    "C55_example"
   ],
   "note": "Whole server (routing, seven endpoints) over the DirectModel partition; composes C21, C39-C42. Requests are handled one after another; the store's own steps interleave freely. Concurrent requests: the store part is C21 (linearizable calls), the composition with concurrent handlers is not proved."
  },
  {
   "property": "C56",
   "status": "partial",
   "theorems": [
    "C56_batch_data_is_served",
    "C56_example",
    "C56_no_request_for_the_empty_key",
    "C56_every_stored_object_is_reachable_refuted"
   ],
   "note": "The storing part is proved. The last clause is refuted: a batch accepts an object with an empty key and counts it, but no URL path names the empty key (the path / has only the batch endpoint), so it can never be read or deleted."
  },
  {
   "property": "C57",
   "status": "partial",
   "theorems": [
    "C57_killed_at_any_point_partial",
    "C57_covers_restarts",
    "C57_starts_again_after_any_kill_partial",
    "C57_uploaded_data_survives_any_kill_partial",
    "C57_batch_data_survives_any_kill_partial",
    "C57_interrupted_commit_all_or_nothing_partial",
    "C57_interrupted_delete_all_or_nothing_partial",
    "C57_kill_example",
    "C57_kill_delete_example",
    "C57_server_survives_restarts_partial",
    "C57_server_starts_again_partial",
    "C57_uploaded_data_survives_restarts_partial",
    "C57_batch_data_survives_restarts_partial",
    "C57_example"
   ],
   "note": "Requests one after another (as C55). Killed any number of times at points where no object is being removed (so also inside commits of new objects, writes, creates, reads, batches), and a last time at any point at all. Not covered: a second kill after one that interrupted a removal (C25 refutes it), metadata records whose size exponent is not exact (C24) and requests whose handler panicked."
  },
  {
   "property": "C58",
   "status": "partial",
   "theorems": [
    "C58_put_stores_the_file",
    "C58_larger_files_cannot_be_put",
    "C58_put_succeeds",
    "C58_example"
   ],
   "note": "First sentence proved (C58_put_stores_the_file, requests handled one after another in any order). The second sentence is false: with pages of another size than 16 MiB (the client's tile), no file larger than a tile or a page can be put (C58_larger_files_cannot_be_put); it is proved in exactly the remaining cases (C58_put_succeeds), for keys that arrive unchanged (C43)."
  },
  {
   "property": "C59",
   "status": "partial",
   "theorems": [
    "C59_absolute_directory_stores_no_file",
    "C59_relative_directory_stores_no_file",
    "C59_single_file_partial",
    "C59_example",
    "C59_every_file_is_stored_refuted"
   ],
   "note": "The first clause is false for every directory: the walk yields the directory itself first, whose stream fails, so no file is stored (absolute source); a relative source is joined twice and every entry is skipped. The second clause (nothing else changes) is proved. Storing works if the source is a single file with an absolute path."
  },
  {
   "property": "C60",
   "status": "proved",
   "theorems": [
    "C60_reads_after_a_commit_see_it",
    "C60_reads_after_a_delete_find_nothing",
    "C60_example"
   ],
   "note": "Real-time guarantee over all interleavings; overlapping changes of the same key are excluded by hypothesis (then either may win, see C21's concurrent specification)."
  },
  {
   "property": "C61",
   "status": "proved",
   "theorems": [
    "C61_uploaded_data_is_served_to_later_requests",
    "C61_deleted_objects_are_not_served_to_later_requests",
    "C61_example"
   ],
   "note": "The handlers of ServerModel.v run as concurrent tasks over the concurrent partition of DirectModel.v; hypotheses: unforgeable MAC, request_ok (offsets that do not wrap around, C09)."
  },
  {
   "property": "C62",
   "status": "proved",
   "theorems": [
    "C62_device_accesses_are_aligned_and_inside_the_heap",
    "C62_nothing_else_of_the_device_matters",
    "C62_device_accesses_in_later_sessions",
    "C62_opening_reads_nothing_else",
    "C62_example",
    "C62_sessions_example"
   ],
   "note": "Index-page writes of the tuples flusher are covered by the tuples model, not by these accesses. Over any number of sessions (each but the last settled when killed), and for the pages read while opening again, which are all that opening reads of the heap."
  },
  {
   "property": "C63",
   "status": "proved",
   "theorems": [
    "C63_direct_passes",
    "C63_tasks_can_go_on",
    "C63_done_means_tested",
    "C63_wrong_results_are_noticed",
    "C63_failures_are_noticed",
    "C63_keys_differ",
    "C63_example",
    "C63_no_room_example",
    "C63_kv_only_small_objects",
    "C63_kv_only_small_objects_example"
   ],
   "note": "On the direct store for all schedules; kv: only the refusal of second parts; lite through its adapter not covered. A worker that panics leaves the tester waiting forever (the delete count is never reached), which the model shows as a state with a failed task."
  },
  {
   "property": "C64",
   "status": "partial",
   "theorems": [
    "C64_rocksdb_and_kv_keep_the_contract_partial",
    "C64_files_keep_the_contract_partial",
    "C64_s3_keeps_the_contract_partial",
    "C64_each_key_has_its_own_file",
    "C64_s3_uploads_are_not_seen",
    "C64_map_store_publishes_at_once",
    "C64_files_publish_at_once",
    "C64_files_lost_when_replaced",
    "C64_s3_ranges_one_byte_long",
    "C64_s3_nothing_at_the_end",
    "C64_s3_no_empty_objects",
    "C64_map_store_loses_empty_objects",
    "C64_long_ranges_of_files_fail",
    "C64_files_read_past_the_end",
    "C64_keys_without_a_file",
    "C64_map_example",
    "C64_files_example",
    "C64_long_range_example",
    "C64_s3_example"
   ],
   "note": "Proved for every history for objects of at least a byte, within the store's limits, and for ranges an adapter supports (map_ok, fs_ok, s3_ok in StoreSpec.v); the full claim is false and each exclusion is shown necessary: empty objects cannot be committed to S3 and vanish on RocksDB and kv; an S3 range that ends before the object has one byte too many; a file range longer than one read that ends before the file panics or never ends; the empty key has no file; files, RocksDB and kv show an upload before its commit. The systems behind the adapters are modelled from their documentation, and kv by C34's specification."
  },
  {
   "property": "C65",
   "status": "partial",
   "theorems": [
    "C65_benchmark_runs_through",
    "C65_benchmark_ends",
    "C65_on_rocksdb_and_kv",
    "C65_on_files",
    "C65_on_s3",
    "C65_s3_reads_too_much_unnoticed",
    "C65_a_store_that_returns_nothing_passes",
    "C65_empty_objects_fail",
    "C65_example",
    "C65_s3_example"
   ],
   "note": "First part proved for every store and interleaving, with the stores of C64 as instances. The converse is false of the code: the comparison loop checks the bytes that arrive but not their number, so any store made to return nothing passes (and S3, whose ranges are a byte too long, passes). Empty objects make it panic on RocksDB and kv. start + read_size is assumed not to wrap."
  },
  {
   "property": "C66",
   "status": "proved",
   "theorems": [
    "C66_lite_keeps_the_contract",
    "C66_refused_for_lack_of_room",
    "C66_empty_range_is_not_read_refuted",
    "C66_benchmark_while_room",
    "C66_benchmark_on_lite",
    "C66_example"
   ],
   "note": "Calls follow one another in time. Ranges must have a byte: that an empty range, which the contract of C64 allows, is never answered is proved as a refutation. Object ids are assumed never to repeat."
  },
  {
   "property": "C67",
   "status": "proved",
   "theorems": [
    "C67_direct_answers_right",
    "C67_benchmark_fails_only_in_creating",
    "C67_benchmark_on_direct",
    "C67_example"
   ],
   "note": "Safety: that each call comes to an end is not part of the claim. Calls follow one another in time; size plus a large page must not exceed 2^64."
  },
  {
   "property": "C68",
   "status": "proved",
   "theorems": [
    "C68_every_call_is_acknowledged",
    "C68_acknowledged_in_the_end",
    "C68_idle_pass_forgets_nobody"
   ],
   "note": "Liveness of the flush without assuming a scheduler beyond: device writes end and the flusher is run. A flow of new calls that never stops is not considered (each pass still ends)."
  },
  {
   "property": "C69",
   "status": "partial",
   "theorems": [
    "C69_every_transaction_is_acknowledged",
    "C69_then_the_device_has_everything",
    "C69_every_call_ends_partial",
    "C69_every_call_ends_or_panics",
    "C69_a_deletion_panics_refuted",
    "C69_example"
   ],
   "note": "The journal part is proved for all histories (on the device: for transactions that fit the journal, as C12). That calls end is proved for all calm histories (C14), with and without versioning. In histories that are not calm every call gets to its end, where it returns or panics releasing its pages; that it always returns is refuted there: deleting an object that came back (C14) panics."
  },
  {
   "property": "C70",
   "status": "proved",
   "theorems": [
    "C70_every_cut_batch_is_acknowledged",
    "C70_example"
   ],
   "note": "About batches the writer has cut; cutting one needs room in the log."
  }
 ]
}