{
 "claims": [
  {
   "property": "C01",
   "status": "proved",
   "theorems": [
    "C01_results_real_distinct",
    "C01_results_real_distinct_index",
    "C01_distinct_large_ids_refuted"
   ],
   "note": "Any link graph, schedule, ef and bound; ids below the pooled visited list length (25500). Beyond it an id can be returned twice (witness)."
  },
  {
   "property": "C02",
   "status": "proved",
   "theorems": [
    "C02_true_distances_sorted",
    "C02_true_distances_sorted_index",
    "C02_sorted_nan_refuted"
   ],
   "note": "Distances must be numbers, as the property says; with NaN the order is lost (witness)."
  },
  {
   "property": "C03",
   "status": "proved",
   "theorems": [
    "C03_bound_and_limit",
    "C03_limit_index",
    "C03_client_bound_limit",
    "C03_client_bound_limit_text",
    "C03_larger_limit_appends",
    "C03_requests_bound_limit",
    "C03_requests_bound_limit_text"
   ],
   "note": "Index and request level, both endpoints; every graph and float bound. Ids below the visited list length (25500), symmetric provider (all of the code's are)."
  },
  {
   "property": "C04",
   "status": "proved",
   "theorems": [
    "C04_terminates",
    "C04_terminates_index",
    "C04_succeeds",
    "C04_each_id_evaluated_once",
    "C04_log_erases"
   ],
   "note": "Termination for every graph; each id evaluated at most once per layer via an instrumented search that erases to the search."
  },
  {
   "property": "C05",
   "status": "proved",
   "theorems": [
    "C05_exhaustive",
    "C05_exhaustive_connected",
    "C05_negative_distance_refuted"
   ],
   "note": "The bound is two-sided in the code: negative distances are dropped (witness), the theorems state it."
  },
  {
   "property": "C06",
   "status": "partial",
   "theorems": [
    "C06_small_exact_partial",
    "C06_exact_match_dropped_refuted"
   ],
   "note": "Exact up to 30 vectors for every layer assignment, schedule, query and ef >= 1, for distances that are numbers. The code also drops negative distances (rounded cosine), so an exact match can be missing (witness)."
  },
  {
   "property": "C07",
   "status": "partial",
   "theorems": [
    "C07_schedule_independent_partial",
    "C07_schedule_independent_knn_partial",
    "C07_tie_refuted"
   ],
   "note": "Proved for both query kinds, every index, ef >= 1 and any two schedules when no two stored vectors are equally far from the query; with ties the answer depends on timing (witness with three vectors and client parameters)."
  },
  {
   "property": "C08",
   "status": "partial",
   "theorems": [
    "C08_tombstoned_never_returned",
    "C08_tombstoned_never_returned_index",
    "C08_until_cleanup_partial",
    "C08_history_partial",
    "C08_unflushed_refuted",
    "C08_restart_refuted",
    "C08_second_cleanup_refuted",
    "C08_entry_point_refuted",
    "C08_flat_refuted"
   ],
   "note": "Until clean-up or restart: any history. With clean-ups, failing or interrupted ones included: histories that write back first, keep ids below the table count, do not delete the entry point, and do not re-link a removed vertex that is still cached. False without each of these, after a restart, and for the flat search of the index."
  },
  {
   "property": "C09",
   "status": "proved",
   "theorems": [
    "C09_allow_list",
    "C09_allow_list_max_dist",
    "C09_allow_list_flat"
   ],
   "note": "All three search paths."
  },
  {
   "property": "C10",
   "status": "proved",
   "theorems": [
    "C10_flat_search_exact",
    "C10_flat_search_total",
    "C10_limit_zero_refuted"
   ],
   "note": "k >= 1 as the property says; k = 0 panics (witness)."
  },
  {
   "property": "C100",
   "status": "partial",
   "theorems": [
    "C100_more_documents_partial",
    "C100_lost_refuted"
   ],
   "note": "Proved for up to 61 documents and limits that reach their number, over any requests, restarts and queries. False for 62: of 60 equal documents and a different one, the different one is found until one more equal document is added."
  },
  {
   "property": "C11",
   "status": "proved",
   "theorems": [
    "C11_min_history",
    "C11_max_history",
    "C11_index_history",
    "C11_panic_iff_underflow",
    "C11_drain_min",
    "C11_drain_max",
    "C11_nan_refuted"
   ],
   "note": "Both queue types, every history; distances must be numbers (C11_nan_refuted shows the order is lost with NaN)."
  },
  {
   "property": "C12",
   "status": "partial",
   "theorems": [
    "C12_list_history_partial",
    "C12_pool_history_partial",
    "C12_huge_ids_refuted",
    "C12_by_value_refuted",
    "C12_by_value_small",
    "C12_huge_ids_panic"
   ],
   "note": "Proved for ids and sizes below 2^60 over every history; false for ids >= 2^63 (witness), and a list passed by value loses marks that needed growth. Every id of 2^63 or more but the last panics."
  },
  {
   "property": "C13",
   "status": "proved",
   "theorems": [
    "C13_degree_bounded"
   ],
   "note": "No hypothesis on distances, schedules, ids or the vector source; failing insertions included."
  },
  {
   "property": "C14",
   "status": "partial",
   "theorems": [
    "C14_links_proper_partial",
    "C14_id_reuse_refuted"
   ],
   "note": "Proved for histories in which the id of a vector of the right dimension is not reused; false when the client reuses the id of an insertion that failed half-way because of the vector source (witness: self link). C79 carries it over histories of requests with restarts."
  },
  {
   "property": "C15",
   "status": "partial",
   "theorems": [
    "C15_layers_consistent_partial",
    "C15_id_reuse_refuted"
   ],
   "note": "As C14; witness of a layer-1 link to a ground-layer vector after id reuse. C79 carries it over histories of requests with restarts."
  },
  {
   "property": "C16",
   "status": "proved",
   "theorems": [
    "C16_entry_point_dominates"
   ],
   "note": "Arbitrary distances, schedules and vector-source answers; ids of failed insertions may be reused."
  },
  {
   "property": "C17",
   "status": "proved",
   "theorems": [
    "C17_wrong_dimension_rejected",
    "C17_one_dimension",
    "C17_right_dimension_accepted"
   ],
   "note": "Rejected with an error, all other nodes, entry point and the set of possible answers of every query unchanged; conversely right-dimension vectors are accepted given a working vector source."
  },
  {
   "property": "C18",
   "status": "partial",
   "theorems": [
    "C18_findable_upto_61_partial",
    "C18_query_upto_61_partial",
    "C18_every_vector_findable_refuted"
   ],
   "note": "Proved for every collection of up to 61 vectors (every layer assignment, schedule, provider; also: a query with ef >= size answers exactly). False from 62 on with the client's own parameters: 61 copies of one vector, the next vector is unreachable as soon as it is added (witness). 61 is therefore tight."
  },
  {
   "property": "C19",
   "status": "proved",
   "theorems": [
    "C19_survives_restart",
    "C19_survives_restart_partial",
    "C19_dropped_between_partial",
    "C19_dropped_within_partial"
   ],
   "note": "C19_survives_restart: all histories of requests one after the other (the property quantifies over histories of requests; running at the same time is C88 and C64, where it is false), those that failed anywhere included, with the bounded node cache dropping any vertices, changed ones included, before any step; vertices as whole values, changed in any way. C19_survives_restart_partial: the same for the index with the insertion and Flush of the code, without drops. Request level: see the client model. C19_dropped_between_partial: that index with drops between operations; C19_dropped_within_partial: the links of a layer, any interleaving of goroutines in which a vertex is not linked or written by another Flush while a Flush writes it. What is dropped unwritten is lost for both processes (C36, C64)."
  },
  {
   "property": "C20",
   "status": "partial",
   "theorems": [
    "C20_same_answers_partial",
    "C20_same_answers_upto_61_partial",
    "C20_same_answers_refuted"
   ],
   "note": "False when upper layers exist: the maximum layer is not restored. Proved without upper layers (all interleavings) and for up to 61 vectors with ef at least their number."
  },
  {
   "property": "C21",
   "status": "partial",
   "theorems": [
    "C21_crash_searchable_partial",
    "C21_first_batch_refuted"
   ],
   "note": "Proved from the first acknowledged batch on, for every later history, crash point and key order; false for a crash during the very first write-back."
  },
  {
   "property": "C22",
   "status": "partial",
   "theorems": [
    "C22_ids_unique_partial",
    "C22_failed_request_refuted",
    "C22_concurrent_refuted"
   ],
   "note": "False after a request that stored documents and then failed, and for two requests at the same time; proved for every history (restarts, re-creation, queries, requests that fail before storing) where each add request succeeded or stored nothing."
  },
  {
   "property": "C23",
   "status": "partial",
   "theorems": [
    "C23_acknowledged_stored_partial",
    "C23_skipped_refuted",
    "C23_dimension_refuted"
   ],
   "note": "False: documents whose vector cannot be obtained or indexed are skipped and still counted. Proved whenever nothing was skipped."
  },
  {
   "property": "C24",
   "status": "partial",
   "theorems": [
    "C24_paired_partial",
    "C24_paired_text_partial",
    "C24_failed_request_refuted",
    "C24_requests_paired_partial",
    "C24_requests_paired_text_partial"
   ],
   "note": "Same scope as C22; false after a failed request."
  },
  {
   "property": "C25",
   "status": "proved",
   "theorems": [
    "C25_complete_in_order",
    "C25_failing_fetch_fails",
    "C25_endpoints"
   ],
   "note": "Every completion order of the fetch goroutines."
  },
  {
   "property": "C26",
   "status": "partial",
   "theorems": [
    "C26_limit_zero_partial",
    "C26_text_limit_zero_refuted",
    "C26_text_breadth",
    "C26_negative_limit_refuted",
    "C26_one_request_exact_partial",
    "C26_history_exact_partial",
    "C26_62_documents_refuted",
    "C26_history_limit_partial"
   ],
   "note": "By vector, limit 0 returns everything within the distance on a connected ground layer of at most 800 vectors. False by text (at most one document) and for negative limits (handler panic). From an add request of up to 61 documents, with vectors or by text, to the exact answer of the query by vector, also after a restart; C26_history_exact_partial: after any history of add requests (up to 61 documents in all), queries, reads and restarts. The bound of 61 documents is tight: of 62 documents in one successful request (61 equal vectors and another one) the query by the last one's own vector with limit 0 returns the other 61 and not it. For up to 61 documents also with every limit: the nearest ones are answered."
  },
  {
   "property": "C27",
   "status": "partial",
   "theorems": [
    "C27_empty_refuted",
    "C27_empty_is_an_error_partial"
   ],
   "note": "False: every query on a collection without vectors is answered with an error."
  },
  {
   "property": "C28",
   "status": "partial",
   "theorems": [
    "C28_unique_readable",
    "C28_reads_back_partial",
    "C28_log_reads_back_partial",
    "C28_highest_level_refuted"
   ],
   "note": "Every record kind incl. product quantizer, whatever follows; false for level 65535 (reading panics). Ids below 2^40."
  },
  {
   "property": "C29",
   "status": "partial",
   "theorems": [
    "C29_torn_log_partial",
    "C29_torn_entry_point_refuted",
    "C29_pq_length_refuted"
   ],
   "note": "Every cut of every log without product-quantizer records when the torn record is not an entry-point record; false for both exceptions."
  },
  {
   "property": "C30",
   "status": "partial",
   "theorems": [
    "C30_condense_partial",
    "C30_phantom_node_refuted",
    "C30_pq_refuted",
    "C30_too_many_links_refuted",
    "C30_link_cut_refuted"
   ],
   "note": "Proved for logs without product quantizer, whose ClearLinksAtLevel records reach existing nodes and whose lists stay below 65536; false without each condition."
  },
  {
   "property": "C31",
   "status": "partial",
   "theorems": [
    "C31_combine_partial",
    "C31_crash_in_merge_partial",
    "C31_crash_partial",
    "C31_links_twice_refuted",
    "C31_leftover_refuted"
   ],
   "note": "Undisturbed runs: same state, for every directory of whole logs. Crashes at any point, any number of them: same index if the condensed logs only set values, exactly the same state for crashes while merging. False: a crash after the rename appends links twice; a partial condensed file left by a failed condensing makes the combiner overwrite the original log."
  },
  {
   "property": "C32",
   "status": "proved",
   "theorems": [
    "C32_prefix_in_file",
    "C32_flushed_exactly",
    "C32_error_stops",
    "C32_calls_return",
    "C32_runes"
   ],
   "note": "For every sequence of calls, buffer size and short-write or error behaviour of the file; runes are valid code points (a negative rune writes one byte)."
  },
  {
   "property": "C33",
   "status": "partial",
   "theorems": [
    "C33_never_another_ids_vector",
    "C33_current_vector_partial",
    "C33_multi_positional_partial",
    "C33_deleted_served_refuted",
    "C33_stale_served_refuted",
    "C33_bounded",
    "C33_kept_while_small",
    "C33_kept_from_new"
   ],
   "note": "Never another id's vector, in every interleaving; the current vector if lookups are not interrupted; false for a lookup that stores its vector after a deletion or update. Also: the watcher keeps the cache below its maximum and drops nothing before that many vectors were stored."
  },
  {
   "property": "C34",
   "status": "partial",
   "theorems": [
    "C34_upto_capacity_partial",
    "C34_full_crashes",
    "C34_refuted",
    "C34_stored_ids_fit",
    "C34_grow_makes_room"
   ],
   "note": "False: the 25001st vector of a collection crashes the handler (the growth of the vector cache is commented out); proved below that size for a working vector source, over requests and restarts. No request history stores an id beyond the cache. Grow, which the service never calls, would make room for every id."
  },
  {
   "property": "C35",
   "status": "proved",
   "theorems": [
    "C35_cache_transparent"
   ],
   "note": "The eviction policy of golang-lru is a trusted contract; write-backs succeed."
  },
  {
   "property": "C36",
   "status": "partial",
   "theorems": [
    "C36_written_back_partial",
    "C36_large_batch_loses",
    "C36_all_written_refuted"
   ],
   "note": "False for batches of more than 10000 vectors (the cache drops dirty vertices); proved up to the cache capacity."
  },
  {
   "property": "C37",
   "status": "partial",
   "theorems": [
    "C37_bounds",
    "C37_integer_fields_partial",
    "C37_other_fields",
    "C37_rejected_iff",
    "C37_ill_typed_refuted",
    "C37_negative_refuted"
   ],
   "note": "Bounds always hold; exact values of all fields and exact rejection condition proved, including json.Number parsing. False: ill-typed integers silently become 0, negative numbers below the int64 range become its maximum."
  },
  {
   "property": "C38",
   "status": "partial",
   "theorems": [
    "C38_update_decision_partial",
    "C38_immutable_kept",
    "C38_distance_refuted",
    "C38_own_type_refuted",
    "C38_unchecked_refuted",
    "C38_failed_changes_refuted",
    "C38_mutable_updated",
    "C38_incomplete_config_rejected",
    "C38_compression_started"
   ],
   "note": "Decision proved for efConstruction, maxConnections, cleanupIntervalSeconds; immutable settings of a running index never change. False: distance is not compared, the package's own configuration type is always rejected, a failing update has already changed settings. An update sets every mutable setting to the given value."
  },
  {
   "property": "C39",
   "status": "partial",
   "theorems": [
    "C39_never_below_k",
    "C39_explicit",
    "C39_automatic_partial",
    "C39_automatic_large_k",
    "C39_overflow_refuted"
   ],
   "note": "Exact formula unless k times factor overflows int64 while max exceeds k; never below k in any case."
  },
  {
   "property": "C40",
   "status": "proved",
   "theorems": [
    "C40_error_iff_length",
    "C40_symmetric",
    "C40_nonnegative",
    "C40_zero_on_equal",
    "C40_zero_on_equal_inf_refuted"
   ],
   "note": "Both the Go loops and the AVX2 kernels; bit-exact IEEE binary32."
  },
  {
   "property": "C41",
   "status": "proved",
   "theorems": [
    "C41_dot_kernel_uses_each_index_once",
    "C41_l2_kernel_uses_each_index_once",
    "C41_dot_kernel_exact",
    "C41_l2_kernel_exact",
    "C41_bitwise_equality_refuted",
    "C41_cosine_close"
   ],
   "note": "Every length. In float32: a bracketing of one multiply-add per index; equality with the scalar loop in every commutative monoid. The cosine distances of the two implementations differ by at most (8n+48) 2^-24 on vectors of moderate size."
  },
  {
   "property": "C42",
   "status": "partial",
   "theorems": [
    "C42_validated_partial",
    "C42_rejected",
    "C42_bytes_refuted",
    "C42_reserved_refuted",
    "C42_existing_refuted",
    "C42_null_refuted"
   ],
   "note": "False: type bytes is accepted without an index, hnswId is overridden, creating an existing collection answers success without the indexes, a null index crashes. Proved: what is accepted, what is rejected, and exactly which indexes a new collection gets."
  },
  {
   "property": "C43",
   "status": "partial",
   "theorems": [
    "C43_created_are_listed",
    "C43_listed_names",
    "C43_no_duplicates",
    "C43_listed_were_requested",
    "C43_listing_exact_partial",
    "C43_failed_create_refuted",
    "C43_failed_delete_refuted",
    "C43_foreign_refuted",
    "C43_listing_fails"
   ],
   "note": "Live collections are always listed, once. Exact if no store call fails half-way and no other program uses the name space; false otherwise."
  },
  {
   "property": "C44",
   "status": "partial",
   "theorems": [
    "C44_no_crash_partial",
    "C44_crash_refuted",
    "C44_incomplete_rejected"
   ],
   "note": "False for null documents, properties that are no object and text properties that are no string; proved for all other bodies after every history. Requests that lack a part are rejected without effect."
  },
  {
   "property": "C45",
   "status": "partial",
   "theorems": [
    "C45_no_dead_ends_partial",
    "C45_unflushed_refuted",
    "C45_gap_refuted",
    "C45_entry_point_refuted",
    "C45_restart_refuted"
   ],
   "note": "Proved when all stored ids are below the number of table entries and the entry point is not deleted. False otherwise, and after a restart, because re-linked vertices are not written back."
  },
  {
   "property": "C46",
   "status": "partial",
   "theorems": [
    "C46_descent_gets_closer_partial",
    "C46_deleted_entry_refuted"
   ],
   "note": "Proved for an index without deleted vectors; false when the entry point is deleted (witness)."
  },
  {
   "property": "C47",
   "status": "partial",
   "theorems": [
    "C47_get_harmless_partial",
    "C47_get_first_refuted"
   ],
   "note": "Proved for an open collection; false if the get request is the first one after a start."
  },
  {
   "property": "C48",
   "status": "partial",
   "theorems": [
    "C48_hits_have_documents_partial",
    "C48_update_refuted",
    "C48_skipped_refuted",
    "C48_requests_hits_have_documents_partial"
   ],
   "note": "Proved if every add request succeeded without skipping and with new document ids; false when a document is added again with another vector, or skipped after indexing."
  },
  {
   "property": "C49",
   "status": "partial",
   "theorems": [
    "C49_recreated_empty_partial",
    "C49_stale_vectors_refuted",
    "C49_stale_documents_refuted",
    "C49_unregistered"
   ],
   "note": "False: failing store deletions are answered with success and leave vectors or documents behind. Proved if both succeed. A deleted collection's index is unregistered whatever fails."
  },
  {
   "property": "C50",
   "status": "proved",
   "theorems": [
    "C50_cache_keys_distinct"
   ],
   "note": "All names and ids within one pod (a client opens one pod)."
  },
  {
   "property": "C51",
   "status": "partial",
   "theorems": [
    "C51_small_collections_partial",
    "C51_new_process_has_no_vectors",
    "C51_restart_needs_vectors",
    "C51_after_restart_refuted",
    "C51_evicted",
    "C51_recently_used_kept"
   ],
   "note": "False: after a restart a collection of 30 vectors silently drops every further document (the vectors of old ids live only in memory); proved for collections of at most 30 vectors over all requests and restarts."
  },
  {
   "property": "C52",
   "status": "partial",
   "theorems": [
    "C52_condense_partial",
    "C52_condense_crash",
    "C52_deletions_lost_refuted",
    "C52_clear_beyond_refuted",
    "C52_append_refuted",
    "C52_torn_log_blocks_refuted"
   ],
   "note": "Crash points: exactly the same state. Condensing: same index at any position among the logs if the log only adds and sets. False: deletions, removed tombstones, cleared links and resets of entries of earlier logs are lost; a failed condensing followed by another one leaves an unreadable log."
  },
  {
   "property": "C53",
   "status": "partial",
   "theorems": [
    "C53_vectors_kept_partial",
    "C53_findable_refuted"
   ],
   "note": "Any clean-up keeps the stored vectors of all other ids. False: that they are found; one deletion can cut the entry point off from everything."
  },
  {
   "property": "C54",
   "status": "partial",
   "theorems": [
    "C54_added_again_partial",
    "C54_before_cleanup_refuted"
   ],
   "note": "Proved after a clean-up that ran to its end. False before: Add does not remove the tombstone."
  },
  {
   "property": "C55",
   "status": "partial",
   "theorems": [
    "C55_no_lock_left_partial",
    "C55_store_error_refuted",
    "C55_missing_entry_point_refuted",
    "C55_locks_left"
   ],
   "note": "Proved for every interruption and every failure except a failing KVDelete and a deleted entry point that is not stored; both leave a lock held."
  },
  {
   "property": "C56",
   "status": "partial",
   "theorems": [
    "C56_near_vector_faithful_partial",
    "C56_near_text_faithful_partial",
    "C56_small_integers_shown",
    "C56_own_distance_refuted",
    "C56_hnsw_id_refuted",
    "C56_big_integers_refuted"
   ],
   "note": "Proved for every request history except the properties id, vector, hnswId, distance and numbers beyond float64. False: a property distance is overwritten, hnswId is added or replaced, integers above 2^53 change."
  },
  {
   "property": "C57",
   "status": "partial",
   "theorems": [
    "C57_acknowledged_readable_partial",
    "C57_vector_refuted"
   ],
   "note": "Proved over every later history if the request skipped no document and its ids are distinct. False for the properties vector (dropped) and hnswId (replaced)."
  },
  {
   "property": "C58",
   "status": "partial",
   "theorems": [
    "C58_never_unmarshallable_partial",
    "C58_later_requests_fail_refuted",
    "C58_query_crashes_refuted",
    "C58_finite_components_partial",
    "C58_failed_open"
   ],
   "note": "False: after a rejected request with the component 1e39 every later add request of up to as many documents fails and queries crash. Proved: no marshalling failure if all given vectors stay finite under normalisation. Now also: no marshalling failure if all given components are finite float32 numbers, for every provider (normalisation keeps vectors finite)."
  },
  {
   "property": "C59",
   "status": "partial",
   "theorems": [
    "C59_cosine_accurate_partial",
    "C59_cosine_range_partial",
    "C59_answers_accurate_partial",
    "C59_large_vectors_refuted",
    "C59_small_vectors_refuted"
   ],
   "note": "Proved with error (4n+24) 2^-24 for components up to 2^40, one of at least 2^-40, n up to 65536, both dot products, and for reported distances in clean histories. False for large (1e30) and small (1e-30) components: squares overflow or underflow and a vector is at distance 1 from itself. Uses the axioms of the standard library's reals."
  },
  {
   "property": "C60",
   "status": "partial",
   "theorems": [
    "C60_true_neighbours_partial",
    "C60_history_neighbours_partial",
    "C60_exact_match_refuted",
    "C60_history_limit_partial"
   ],
   "note": "Proved for any history of requests with up to 61 documents of moderate size, up to eps = (4n+24) 2^-24. Missing: more documents. False within eps of the query: a computed negative distance drops the exact match (1,4). More than 61 documents: false, see C26_62_documents_refuted. Also for every limit: the nearest documents up to 2 eps are answered."
  },
  {
   "property": "C61",
   "status": "partial",
   "theorems": [
    "C61_terminates",
    "C61_sound",
    "C61_exact_partial",
    "C61_after_flush_partial",
    "C61_limit_refuted",
    "C61_repeats_refuted"
   ],
   "note": "Proved on every index: termination, every result is right, limits of 100 or more are kept. Exact if each search is exact (flat search, or connected ground layer and ef at least the number of vectors) and either distances differ and there is no limit, or there are at most 100 vectors; so after up to 61 insertions and a write-back. False: limits below 100; on a larger (hand-made) connected graph a vector is returned twice and the nearest is left out."
  },
  {
   "property": "C62",
   "status": "partial",
   "theorems": [
    "C62_knn_exact_partial",
    "C62_unflushed",
    "C62_unflushed_refuted"
   ],
   "note": "Proved after up to 61 insertions and a write-back (also after a restart) with ef at least the number of vectors. False before the first write-back: both searches return nothing whatever was added. Missing: more vectors."
  },
  {
   "property": "C63",
   "status": "proved",
   "theorems": [
    "C63_others_untouched",
    "C63_history"
   ],
   "note": "Stores and registrations of every other collection, over every history and failure; a restart only forgets the registrations. The document cache is covered by C50."
  },
  {
   "property": "C64",
   "status": "partial",
   "theorems": [
    "C64_links_kept_partial",
    "C64_links_durable_partial",
    "C64_search_drops_link_refuted",
    "C64_flush_drops_link_refuted",
    "C64_two_indexes_drop_link_refuted",
    "C64_same_id_drops_link_refuted",
    "C64_evicted_link_refuted"
   ],
   "note": "Proved for interleavings of any number of goroutines on one index in which no object replaces another one of the same id in the node cache; over restarts also if no link is added to a vertex while a Flush writes it and a restart finds everything written. False otherwise: a search loading a vertex at the same time, a Flush marking a vertex as written after a link was added, two indexes of a collection opened at once, two insertions under the same count each lose links. Missing: lists that reach the maximal number of links (there links are dropped on purpose). With the bounded node cache one request alone loses the links of a vertex that is dropped before Flush."
  },
  {
   "property": "C65",
   "status": "partial",
   "theorems": [
    "C65_no_deadlock_partial",
    "C65_can_finish_partial",
    "C65_bounded",
    "C65_drop_deadlock_refuted",
    "C65_leaked_lock_refuted"
   ],
   "note": "Proved for any number of goroutines that run any sequence of client requests, index operations, clean-ups and cache ticks, over the lock operations of each function with the blocking rules of sync.RWMutex (waiting writers stop new readers). Refuted for the rest: drop of the vector cache (Shutdown, Drop, Compress) takes all shard locks without the maintenance lock and deadlocks against the ticker; a clean-up that cannot read the deleted entry point, or a tombstoned node, returns with a lock held, after which insertions wait for ever."
  },
  {
   "property": "C66",
   "status": "partial",
   "theorems": [
    "C66_query_reported_partial",
    "C66_others_unaffected_partial",
    "C66_answer_read",
    "C66_start",
    "C66_none_configured",
    "C66_status_crashes_query",
    "C66_status_crashes_query_refuted",
    "C66_status_crashes_add_refuted",
    "C66_add_acknowledged_refuted"
   ],
   "note": "Proved: no answer, an unreadable answer or one without a vector rejects a query by text with 400; add requests skip the document and treat the others as if it were not there; start-up and the case without a vectorizer; what is read of a good answer. Refuted: any status other than 200 crashes the request (Corpi returns neither vector nor error); a skipped document is acknowledged."
  },
  {
   "property": "C67",
   "status": "partial",
   "theorems": [
    "C67_found_by_text_partial",
    "C67_history_text_partial",
    "C67_same_text_refuted",
    "C67_same_vector_refuted",
    "C67_text_limit_partial",
    "C67_history_limit_partial"
   ],
   "note": "Proved for any history of requests with up to 61 documents, by text or with vectors, and limits that reach their number (the limit is the breadth of the search), also after a restart. Refuted: AddDocuments appends a space to the text, so a vectorizer that tells the two texts apart does not find the document by its own text; with equal vectors a computed negative distance drops it. Missing: more documents. More than 61 documents: false by vector, see C26_62_documents_refuted. For up to 30 documents, in one request or over a history with restarts, also with every limit above zero: the nearest documents are answered."
  },
  {
   "property": "C68",
   "status": "partial",
   "theorems": [
    "C68_query_nearest",
    "C68_document_faithful_partial",
    "C68_document_accepted",
    "C68_round_trip",
    "C68_monotone",
    "C68_property_nearest",
    "C68_document_nearest_refuted",
    "C68_document_query_differ_refuted",
    "C68_infinite_stored_refuted"
   ],
   "note": "Proved in full for query vectors, the vectorizer's vectors and number properties. A document's vector is rounded twice (float64, then float32): it is faithful (no float32 between), nearest up to a relative 2^-52, and float32 values sent with 9 digits arrive unchanged; but not always nearest, not always what the same number is in a query, and 1e39 is stored as an infinity where a query with it is refused. ParseFloat itself is taken to round correctly."
  },
  {
   "property": "C69",
   "status": "partial",
   "theorems": [
    "C69_own_codes_partial",
    "C69_later_changes_partial",
    "C69_codes_read_back",
    "C69_refused",
    "C69_hole_refuted",
    "C69_evicted_refuted",
    "C69_codes_dropped_refuted",
    "C69_insert_beyond_refuted"
   ],
   "note": "Proved when all vectors are in the vector cache at the time of the switch and the number of codes stays below the cache's limit. Refuted otherwise: Compress numbers the cached vectors consecutively, so after a gap ids get the codes of other vectors; vectors that are not cached get none although success is reported; growing counts all slots as used, so a limit of 50000 or less makes the next tick drop all codes for good; ids beyond the slots panic. The quantizer itself (another library) is an arbitrary function."
  },
  {
   "property": "C70",
   "status": "partial",
   "theorems": [
    "C70_add_as_sent",
    "C70_query_as_sent",
    "C70_collection_as_sent",
    "C70_query_numbers",
    "C70_refused_unchanged",
    "C70_stored_ids",
    "C70_read_parameters",
    "C70_null_component_refuted",
    "C70_unknown_field_refuted",
    "C70_name_case_refuted",
    "C70_no_ids_refuted",
    "C70_null_is_absent"
   ],
   "note": "Proved: what the Go types write arrives unchanged; wrong types, missing bodies and malformed ids are refused without effect; stored ids are empty or UUIDs. Refuted: null components of a query vector count as zero, unknown names are ignored, a name in another case replaces the first, and documents without ids are accepted and overwrite one another."
  },
  {
   "property": "C71",
   "status": "partial",
   "theorems": [
    "C71_end_to_end_partial",
    "C71_62_documents_refuted",
    "C71_any_limit_partial"
   ],
   "note": "Proved for up to 61 documents with vectors of components up to 2^39, one of them at least 2^-39, at most 65536 components, every limit from 0, distances up to 4. Not covered: documents nearer than eps, which a negative computed distance drops (C60). The bound is tight: of 62 documents in one successful request, all within the asked distance, the query with limit 0 returns two. Also for every limit above zero: the nearest documents up to 2 eps are answered."
  },
  {
   "property": "C72",
   "status": "partial",
   "theorems": [
    "C72_log_order_partial",
    "C72_flushed_partial",
    "C72_clock_set_back_refuted"
   ],
   "note": "Proved for every history and every crash point when the clock never runs backwards and no existing file is newer than it. Refuted for a clock set back between two switches: the records after the switch are replayed before those of the older file. Maintenance of old files is C31 and C52; a torn record of the entry point or the quantizer is C29."
  },
  {
   "property": "C73",
   "status": "partial",
   "theorems": [
    "C73_backup_partial",
    "C73_same_second_refuted",
    "C73_listed_file_removed_refuted",
    "C73_no_directory_refuted"
   ],
   "note": "Proved for a switch in a later second than every earlier one. Refuted: a switch in the same second reopens the active file, which the listing leaves out, so flushed records are missing; beside the remains of a failed merge the listing names a file it has itself removed; without a log directory (every index of this service) the listing panics."
  },
  {
   "property": "C74",
   "status": "partial",
   "theorems": [
    "C74_pause_partial",
    "C74_resume",
    "C74_lost_error_refuted"
   ],
   "note": "Proved when stopping a cycle fails only because the context expired. Refuted otherwise: the error of the commit log is replaced by the context's, which is none, and success is reported while the log cycles run."
  },
  {
   "property": "C75",
   "status": "partial",
   "theorems": [
    "C75_serves_partial",
    "C75_starts_partial",
    "C75_exits_partial",
    "C75_pod_left_refuted",
    "C75_settings"
   ],
   "note": "Proved: settings, order and content of all calls of a service that serves; when it serves; that it ends with code 1 otherwise. Refuted: a start that fails after creating the pod leaves the pod behind. All settings, debug output included, for every environment and whatever they were before."
  },
  {
   "property": "C76",
   "status": "partial",
   "theorems": [
    "C76_routed",
    "C76_routed_only",
    "C76_delete_url",
    "C76_get_url",
    "C76_documented_partial",
    "C76_unprocessable",
    "C76_get_found_partial",
    "C76_delete_url_refuted",
    "C76_status_refuted",
    "C76_method_case"
   ],
   "note": "Proved: all operations without a path parameter, reading with its query, deletion exactly for names that are one path segment; 422 and its conditions; documented statuses (a read needs its parameters). Refuted: the URL built for the collection a/../b deletes b, the one for a/b is not found; a missing document is answered with 400, 404 is never sent; failures of the store are answered with 400 as malformed requests; a read without a parameter gets an undocumented 422."
  },
  {
   "property": "C77",
   "status": "partial",
   "theorems": [
    "C77_nodes_partial",
    "C77_layout_partial",
    "C77_space_refuted",
    "C77_content_refuted"
   ],
   "note": "Proved for logs of the record kinds the analysis knows: nodes, order, highest levels, consecutive regions, size of the file. Refuted: every region is too small for the links its node may have (and that of level 65535 wraps around); the file is all zeros; deleted nodes keep their regions; an empty log fails; the records of the other condensor are refused. Nothing in the service calls this condensor."
  },
  {
   "property": "C78",
   "status": "partial",
   "theorems": [
    "C78_l2_accurate_partial",
    "C78_l2_order_partial",
    "C78_dot_accurate_partial",
    "C78_manhattan_accurate_partial",
    "C78_hamming_exact",
    "C78_vector_distance_partial",
    "C78_vector_laws",
    "C78_range_refuted",
    "C78_hamming_refuted"
   ],
   "note": "Proved for components up to 2^40 and at most 65536 of them: relative error (1.1 n + 11) 2^-24 (dot product: relative to the sum of the absolute products); Hamming exact up to 2^24 differing components, then constant. Refuted beyond: finite vectors get infinite, zero or NaN distances; a vector with a NaN is not equal to itself."
  },
  {
   "property": "C79",
   "status": "partial",
   "theorems": [
    "C79_degree_bounded",
    "C79_graph_partial",
    "C79_nothing_indexed_refuted",
    "C79_failed_request_refuted",
    "C79_skipped_document_refuted"
   ],
   "note": "The bound on the number of links holds for every history, failures included. The rest is proved for histories whose add requests are acknowledged with nothing skipped and something indexed (or do nothing but open the collection); each of the three conditions is needed: an add request without anything to index makes the first vector link to itself; so does a request that fails in DocPut followed by another; an acknowledged request that skips a document leaves self links and links to a vertex that is not on the layer."
  },
  {
   "property": "C80",
   "status": "partial",
   "theorems": [
    "C80_components",
    "C80_segments_partial",
    "C80_hamming",
    "C80_step_lengths",
    "C80_segments_refuted",
    "C80_avx_refuted"
   ],
   "note": "One component per segment: the same float for every metric but the geographic one (up to the sign of a zero; C80_components, Go loops). Segments of any length: within the rounding bound of C80_segments_partial, with the assembly order or the Go loops; for Hamming the same float up to 2^24 components. Not the same float in general (C80_segments_refuted), and the assembly order differs from the Go loop of Step (C80_avx_refuted). Step and Wrap of the geographic metric panic (geo_spatial.go:61-67): they are [None] in the model and outside these theorems."
  },
  {
   "property": "C81",
   "status": "partial",
   "theorems": [
    "C81_symmetric",
    "C81_distance_partial",
    "C81_self",
    "C81_poles_refuted"
   ],
   "note": "Symmetry, the length check and distance 0 of equal points are proved without restriction. The agreement with the sphere (sin^2 of half the angle within 3e-6) is proved for points whose squared chord is at most 4 (1 - 2e-6) and that are not both close to a pole and to each other. It fails near antipodal points: from latitude 90, longitude 0 to latitude -90, longitude 180 the result is NaN (C81_poles_refuted), because the latitudes in radians are rounded to float32 and A exceeds 1. math.Sin, Cos and Atan2 are arguments with the accuracy of trig_ok; the refutation holds for all of them."
  },
  {
   "property": "C82",
   "status": "partial",
   "theorems": [
    "C82_listeners",
    "C82_tls_settings",
    "C82_shutdown_partial",
    "C82_closed_once",
    "C82_failed_listen_refuted",
    "C82_unknown_scheme_refuted",
    "C82_shutdown_wait_refuted"
   ],
   "note": "The schemes served, the TLS fall-back, the single closing of the channel and the shutdown without errors are proved. Three parts are false: a Listen that fails for https leaves the http address bound, so a second attempt fails on it; a scheme that does not exist is accepted and nothing is served; after the first server that fails to shut down the others are not waited for (the receive is behind a short-circuit &&)."
  },
  {
   "property": "C83",
   "status": "partial",
   "theorems": [
    "C83_no_deadlock_partial",
    "C83_can_finish_partial",
    "C83_released_partial",
    "C83_cache_get_refuted"
   ],
   "note": "Proved for panics anywhere outside the sections that are unlocked without defer (these contain nothing that can panic as long as ids are below the 25000 slots of the vector cache, which the requests of the service keep: C34). False for a lookup of a greater id, which callers of the index can cause: it keeps its shard locked, the ticker of the cache waits for ever and then every lookup in that shard. A panic in a goroutine of its own ends the process and is not in this model."
  },
  {
   "property": "C84",
   "status": "partial",
   "theorems": [
    "C84_sound",
    "C84_ends",
    "C84_answers",
    "C84_same",
    "C84_adding_upto_61_partial",
    "C84_half_done_upto_61_partial",
    "C84_half_states_passed",
    "C84_query_during_add_refuted"
   ],
   "note": "Soundness, termination and answering are proved for an index that changes arbitrarily between the accesses of the query (the last two under the conditions the statements name). That nothing is missed is proved for up to 61 vectors when each access sees whole additions, with any entry point, and also when additions are seen half done, one at a time, before they have linked a layer above the ground (the vertex without links, or a vertex of layer 0 with some of its links back). False when a query sees an addition between two layers: the new vertex is linked on layer 1 and not yet on the ground layer, the query starts its search of the ground layer there and answers the new vertex alone. (knnSearchByVector leaves out vertices under maintenance, search.go:494-518; KnnSearchByVectorMaxDist does not.)"
  },
  {
   "property": "C85",
   "status": "partial",
   "theorems": [
    "C85_reads_change_nothing_partial",
    "C85_after_restart_partial",
    "C85_read_after_restart_refuted",
    "C85_read_after_failure_refuted"
   ],
   "note": "Proved for histories without restarts in which every add request is acknowledged or leaves the index alone (whole state equal), and for queries after a restart before anything is added. False otherwise: AddDocuments does not load the entry point, so an addition after a restart overwrites the stored entry point by 0 unless a query came first; a document that only the entry point leads to is then never found again. Also false after an add request whose Flush failed."
  },
  {
   "property": "C86",
   "status": "proved",
   "theorems": [
    "C86_not_mixed_up",
    "C86_finishes"
   ],
   "note": "For every number of goroutines, all calls, all interleavings at the granularity of one queue operation, and all choices of the pools. The results are those of the functions the other properties are about (Search.knn_max_dist, knn_search, Insert.choose_neighbours, reselect, best_entrypoint). Each call works on an index that does not change during the call; see C84 for queries on a changing index. Queue operations are atomic in the model: a data race inside one is possible only if two goroutines hold the same queue, which is excluded. The compressed branches (product quantisation) are not modelled. C86_early_put_mixes_up shows that the model tells a wrong order of Put and use apart."
  },
  {
   "property": "C87",
   "status": "proved",
   "theorems": [
    "C87_lists_are_values",
    "C87_storage_apart",
    "C87_links_back_the_chosen",
    "C87_choices_fit"
   ],
   "note": "For every number of additions, all interleavings at the granularity of setting one list or linking one neighbour back (both happen under the lock of the vertex), all capacities. The slice given to setConnectionsAtLevel becomes the list of the vertex if it is shorter than two thirds of the capacity; it is then full and below the limit of the layer, so that the next append copies it and no reset happens to it. The hypothesis that choices fit the limits of the layers is proved of what additions choose and the heuristic selects (C87_choices_fit). Clean-up after deletions (delete.go) sets the lists of old vertices and is not part of the events: the client never deletes. A link back that fails in the middle is not an event either. C87_early_links_are_lost: links back to a vertex that has not set its own links yet are lost when it does."
  },
  {
   "property": "C88",
   "status": "partial",
   "theorems": [
    "C88_tidy_partial",
    "C88_one_at_a_time",
    "C88_flush_between_refuted",
    "C88_collection_lost_refuted"
   ],
   "note": "False: Flush writes and marks every cached vertex, also one that another request has just put into the cache and not linked yet (insert.go:271); the links that its request sets afterwards (neighbor_connections.go:111) do not unmark it, so that request's Flush skips it. In a new process the vertex has no links, and if it has become the entry point every search ends at it: the collection is lost to queries (C88_collection_lost_refuted, for all bounds and sizes). Proved: runs in which nobody changes a vertex while it is written and no vertex is written before its request has linked it, with whole vertices, any interleaving, any drops of the cache and restarts; requests one after the other are always so (C88_one_at_a_time), whatever failed before."
  },
  {
   "property": "C89",
   "status": "partial",
   "theorems": [
    "C89_answers_partial",
    "C89_answers_index_partial",
    "C89_succeeds",
    "C89_after_compress_partial",
    "C89_codes_dropped_refuted",
    "C89_missing_code_refuted",
    "C89_beyond_refuted"
   ],
   "note": "False in general: the watcher of the code cache drops all codes once the count reaches the limit (growing counts every slot) and a missing code is never read again, so every query fails; a stored vector without code is left out without an error, and so is what is only reached through it; a link beyond the code cache panics in a goroutine and ends the process. Proved for links and codes within the code cache and the visited list, non-empty queries, and a quantizer whose two ways of computing a distance agree: soundness of both searches, success exactly when the entry point has a code, and, for an index with ids 0..n-1 and a connected ground layer, exactness after Compress. The quantizer itself (weaviate library) is an arbitrary function."
  },
  {
   "property": "C90",
   "status": "partial",
   "theorems": [
    "C90_one_sender_returns_partial",
    "C90_compressed_closes_partial",
    "C90_one_left_running",
    "C90_two_updates_refuted",
    "C90_drop_shutdown_refuted",
    "C90_drop_leaves_one_refuted",
    "C90_two_per_index_partial",
    "C90_two_per_creation",
    "C90_deleted_collections_refuted"
   ],
   "note": "False in general: two configuration updates at once that switch compression on leave the second Compress waiting for ever with compressActionLock held, so no addition, search or deletion returns; Drop followed by Shutdown waits for ever; Drop of an uncompressed index leaves one goroutine (proved: one is left whatever the interleaving); DeleteCollection ends none, so n creations and deletions leave 2n. Proved: with at most one call that ends a goroutine, or on a compressed index with any updates and one closing call, every interleaving returns, and closing a compressed index leaves none; the process has two goroutines per index made since it started, never fewer than two per registered index. Missing in the model: the shard locks of a clearing goroutine (C65) and the failure of New after it started the goroutines."
  },
  {
   "property": "C91",
   "status": "partial",
   "theorems": [
    "C91_expressions_differ_partial",
    "C91_reads_by_property_partial",
    "C91_nothing_invented_partial",
    "C91_by_id",
    "C91_same_expression_refuted",
    "C91_without_value"
   ],
   "note": "False: the client writes property=value without quoting, so the reads (a=b, c) and (a, b=c) are one expression; whatever the store does with it, one of two documents added in one acknowledged request cannot be read by its property. Proved for properties and values without =, < and > and any store (library, an argument) that finds such expressions by equality: found exactly if present, and shown in full; reads whose properties contain no = never share an expression. Without a value (possible only below the HTTP layer) every property gets the same answer."
  },
  {
   "property": "C92",
   "status": "proved",
   "theorems": [
    "C92_lookup",
    "C92_answer"
   ],
   "note": "Interleaving model of the caller, the fetching goroutines and the closing goroutine. Whatever is returned is also what the sequential Client.fetch_docs returns for some order of all fetches, so the theorems about Client.v hold for the goroutines. A fetch itself (DocFind of the library) is an arbitrary result per goroutine and is taken to end."
  },
  {
   "property": "C93",
   "status": "partial",
   "theorems": [
    "C93_same_locks",
    "C93_guarded_partial",
    "C93_vertices_partial",
    "C93_slots_partial",
    "C93_entry_point_partial",
    "C93_first_insertion_partial",
    "C93_queries_race_refuted",
    "C93_additions_race_refuted",
    "C93_flush_race_refuted",
    "C93_preload_race_refuted",
    "C93_cleanup_race_refuted"
   ],
   "note": "False as stated: two queries both write the entry point under the read lock (LoadEntrypoint), an addition reads the maximum layer without a lock, Flush writes vertices without their locks, preload writes a slot under the read lock, and a clean-up replaces the guard of the first insertion. Proved for all operations: indices, tombstones, reset context, visited lists. Proved with the racing operation left out: vertices (no Flush), slots (no addition), entry point (no query, no Flush), guard of the first insertion (no clean-up). The maximum layer has no positive theorem: every operation that descends the graph reads it without a lock."
  },
  {
   "property": "C94",
   "status": "partial",
   "theorems": [
    "C94_uses_entry_point",
    "C94_replaced_partial",
    "C94_nothing_left",
    "C94_out_of_reach_refuted",
    "C94_picks_itself_refuted"
   ],
   "note": "Which node is taken, exactly: among the ids below the number of stored or cached nodes, the least of the highest level. False as stated: a node with a larger id is not found, and the new node itself may be taken, which leaves it linked to itself only."
  },
  {
   "property": "C95",
   "status": "partial",
   "theorems": [
    "C95_alone",
    "C95_no_effect_partial",
    "C95_document_lost_refuted"
   ],
   "note": "False: every query loads the stored entry point over the one in memory (LoadEntrypoint), so a query between an addition that raised the top layer and its Flush takes the new entry point back, and Flush stores the old one; a document that only the entry point leads to is acknowledged and never found. Proved (whole state and answer equal): requests of which no document gets above the top layer, for an index whose entry point in memory is the stored one."
  },
  {
   "property": "C96",
   "status": "partial",
   "theorems": [
    "C96_dropped",
    "C96_others_kept_partial",
    "C96_failed_stays_partial",
    "C96_repeat_refuted",
    "C96_half_removed_refuted",
    "C96_nested_refuted"
   ],
   "note": "False: Drop closes the file before it stops the cycles, and closing it again fails, so a Drop whose cycles did not stop in time can never be repeated and the log stays; a removal that fails half-way leaves a log from which a part of the index is restored; an index whose name has a slash can lie in the directory of another one. Proved: all of it for a Drop that succeeds; the other logs are untouched for names without a slash; a Drop that fails before the removal keeps the files."
  },
  {
   "property": "C97",
   "status": "partial",
   "theorems": [
    "C97_agrees_partial",
    "C97_unwritten",
    "C97_unwritten_refuted",
    "C97_restart_refuted",
    "C97_table_error_refuted"
   ],
   "note": "False: until the first Flush the table is empty and every vector passes; after a start the vector cache is empty, so that right vectors are refused although Add takes them; a failing table counts as empty. Proved once something is written and the entry point's vector is at hand: exactly the vectors that Add accepts pass, and a refused one leaves nothing behind, while Add alone leaves its vertex. The service does not call the function."
  },
  {
   "property": "C98",
   "status": "partial",
   "theorems": [
    "C98_same_answers_partial",
    "C98_layers_refuted",
    "C98_any_limit_partial",
    "C98_text_limit_partial"
   ],
   "note": "Proved for up to 61 documents and limits that reach their number: the same documents with the same distances, and the same lists if no two documents are equally far. False for 62 documents: the random layers decide whether one is found. Also for every limit above zero: by vector for up to 61 documents the answer after one order begins the answer after the other for every limit not smaller, and by text both answers are the same for up to 30 documents at not negative distances."
  },
  {
   "property": "C99",
   "status": "partial",
   "theorems": [
    "C99_distance_cuts",
    "C99_distance_cuts_text",
    "C99_limit_cuts",
    "C99_text_limit_refuted",
    "C99_text_limit_partial"
   ],
   "note": "Proved for the distance by vector and by text and for the limit by vector. False for the limit by text: it is also the breadth of the search, and of three documents with the same vector limit 1 and limit 2 begin with different ones. For up to 30 documents at different, not negative distances the answer by text for a limit begins that for every greater limit."
  }
 ]
}