{
 "claims": [
  {
   "property": "C01",
   "status": "proved",
   "theorems": [
    "C01_keys_distinct"
   ],
   "note": "Storage keys of distinct (subject, predicate) pairs are distinct."
  },
  {
   "property": "C02",
   "status": "proved",
   "theorems": [
    "C02_key_round_trip"
   ],
   "note": ""
  },
  {
   "property": "C03",
   "status": "proved",
   "theorems": [
    "C03_in_memory_is_map",
    "C03_default_callbacks"
   ],
   "note": "For callbacks that handle each value without loss or refuse it; the second theorem shows which values the default callbacks handle."
  },
  {
   "property": "C04",
   "status": "proved",
   "theorems": [
    "C04_delete"
   ],
   "note": ""
  },
  {
   "property": "C05",
   "status": "proved",
   "theorems": [
    "C05_bulk"
   ],
   "note": "Both backends."
  },
  {
   "property": "C06",
   "status": "partial",
   "theorems": [
    "C06_put_success_stored_partial",
    "C06_put_success_stored_refuted"
   ],
   "note": "REFUTED: LevelDB/RocksDB report success for items that could not be encoded. Proved for the in-memory datastore and, on the others, for items that can be encoded."
  },
  {
   "property": "C07",
   "status": "partial",
   "theorems": [
    "C07_backends_partial",
    "C07_backends_refuted",
    "C07_backends_highest_refuted"
   ],
   "note": "REFUTED: DELETE of an absent pair, failed encodings, HIGHEST. Proved: same rows and same responses up to a hidden error, for histories without HIGHEST."
  },
  {
   "property": "C08",
   "status": "partial",
   "theorems": [
    "C08_integer_round_trip_partial",
    "C08_integer_round_trip_refuted"
   ],
   "note": "REFUTED: negating the smallest INT32/INT64 overflows (undefined). Proved for every other value of the four types."
  },
  {
   "property": "C09",
   "status": "proved",
   "theorems": [
    "C09_integer_order"
   ],
   "note": "For symbols that surround the digits (the default ones do); the smallest signed values cannot be encoded at all (C08)."
  },
  {
   "property": "C10",
   "status": "partial",
   "theorems": [
    "C10_precision_partial",
    "C10_double_partial",
    "C10_float_partial",
    "C10_zero_partial",
    "C10_exponent_9_refuted",
    "C10_exponent_309_refuted",
    "C10_subnormal_refuted",
    "C10_precision_0_refuted",
    "C10_same_value_refuted"
   ],
   "note": "REFUTED: -1e8 comes back as -0.1 (exponent 9 of negative, -9 of positive numbers), 1e308 as infinity, 1e-310 as 0, precision 0 throws on reading, and with the default precisions different values are stored alike. Proved for every libm within the stated accuracy: all other values come back within half a unit of the last digit kept plus the binary roundings; with the default precisions 14 (DOUBLE) and 5 (FLOAT) significant digits."
  },
  {
   "property": "C11",
   "status": "proved",
   "theorems": [
    "C11_float_order",
    "C11_all_fields"
   ],
   "note": "For every monotone libm within the stated accuracy (SpecFp.good_libm), all finite values, all precisions and all symbols around the digits."
  },
  {
   "property": "C12",
   "status": "partial",
   "theorems": [
    "C12_contents_exist",
    "C12_first",
    "C12_last_partial",
    "C12_last_refuted"
   ],
   "note": "REFUTED for LAST on an empty in-memory datastore (undefined behaviour). FIRST proved everywhere, LAST on every other datastore."
  },
  {
   "property": "C13",
   "status": "partial",
   "theorems": [
    "C13_next",
    "C13_next_start_partial",
    "C13_integers_alone",
    "C13_next_start_refuted"
   ],
   "note": "Which triples NEXT returns is proved exactly. That it starts with a stored pair is REFUTED in general (keys of variable length share prefixes) and proved where no other key starts with the same bytes."
  },
  {
   "property": "C14",
   "status": "partial",
   "theorems": [
    "C14_prev_partial",
    "C14_prev_behaviour",
    "C14_prev_refuted"
   ],
   "note": "REFUTED: PREV from a pair that is not stored starts at the next larger key, or fails. Proved from stored pairs; exact behaviour proved for all."
  },
  {
   "property": "C15",
   "status": "partial",
   "theorems": [
    "C15_eq_partial",
    "C15_eq_behaviour",
    "C15_eq_refuted"
   ],
   "note": "REFUTED: EQ of a pair that is not stored returns the next triple. Proved for stored pairs; exact behaviour proved for all."
  },
  {
   "property": "C16",
   "status": "partial",
   "theorems": [
    "C16_lowest_partial",
    "C16_lowest_refuted"
   ],
   "note": "REFUTED: LOWEST with a type hint skips keys. Proved where all keys with the prefix are above the search start."
  },
  {
   "property": "C17",
   "status": "partial",
   "theorems": [
    "C17_highest_partial",
    "C17_highest_finds_nothing_refuted",
    "C17_highest_refuted"
   ],
   "note": "REFUTED: HIGHEST never finds anything. Exact LevelDB behaviour and the general negative result proved."
  },
  {
   "property": "C18",
   "status": "proved",
   "theorems": [
    "C18_getop_sound",
    "C18_getop_bulk"
   ],
   "note": ""
  },
  {
   "property": "C19",
   "status": "partial",
   "theorems": [
    "C19_getop_safe_partial",
    "C19_zero_records_refuted",
    "C19_highest_refuted",
    "C12_last_refuted"
   ],
   "note": "REFUTED: 0 records, LAST on an empty and HIGHEST on an in-memory datastore are undefined behaviour. Proved for all other requests."
  },
  {
   "property": "C20",
   "status": "proved",
   "theorems": [
    "C20_closed_datastore"
   ],
   "note": ""
  },
  {
   "property": "C21",
   "status": "proved",
   "theorems": [
    "C21_request_round_trip"
   ],
   "note": ""
  },
  {
   "property": "C22",
   "status": "partial",
   "theorems": [
    "C22_response_round_trip_partial",
    "C22_response_round_trip_refuted"
   ],
   "note": "REFUTED: a GET answer with an empty object (a datastore gives one for an empty object that was PUT) packs but unpacking it is undefined. Proved for responses whose blobs are not empty."
  },
  {
   "property": "C23",
   "status": "partial",
   "theorems": [
    "C23_packing_fits",
    "C23_unpack_in_bounds_partial",
    "C23_unpack_in_bounds_refuted"
   ],
   "note": "REFUTED for reading: a null field (GETOP with null predicate) packs to nothing and unpacking reads out of bounds. Writing always fits (all messages); reading is in bounds for messages without null fields."
  },
  {
   "property": "C24",
   "status": "proved",
   "theorems": [
    "C24_programs",
    "C24_no_double_free",
    "C24_owned",
    "C24_no_leak",
    "C24_kept",
    "C24_released",
    "C24_unpack_leaks"
   ],
   "note": "All programs that create, copy, move, assign, release and destroy handles. Beyond the claim: unpacking into a handle that owns memory, and clear, leak that memory (C24_unpack_leaks). That a reference can outlive the owner is by design and not excluded."
  },
  {
   "property": "C25",
   "status": "proved",
   "theorems": [
    "C25_refused"
   ],
   "note": ""
  },
  {
   "property": "C26",
   "status": "partial",
   "theorems": [
    "C26_permutations_partial",
    "C26_lost_refuted"
   ],
   "note": "REFUTED: of two permutations that go to two datastores of the same other rank one is lost. Proved otherwise, after any history, for any clients of the cluster."
  },
  {
   "property": "C27",
   "status": "partial",
   "theorems": [
    "C27_content_hashes",
    "C27_sum_partial",
    "C27_sum_refuted",
    "C27_rank_partial",
    "C27_rank_refuted"
   ],
   "note": "REFUTED for RANK_MOD_DATASTORES (depends on the rank) and for SUM_MOD_DATASTORES with keys of many MiB (signed overflow). Proved for every other built-in hash, and for the sum hash where the sum fits into int."
  },
  {
   "property": "C28",
   "status": "proved",
   "theorems": [
    "C28_ids_and_ranks"
   ],
   "note": ""
  },
  {
   "property": "C29",
   "status": "partial",
   "theorems": [
    "C29_location_partial",
    "C29_location_refuted",
    "C29_default_refuted"
   ],
   "note": "REFUTED: get_rank is called with the arguments of another overload, so the reported rank is wrong. Proved: ids that do not exist are rejected, the offset is right, datastore 0 is right."
  },
  {
   "property": "C30",
   "status": "partial",
   "theorems": [
    "C30_packets_partial",
    "C30_size_refuted"
   ],
   "note": "REFUTED for the size: the check leaves out the address fields. Proved: the number of operations, and the size up to 16 or 20 bytes."
  },
  {
   "property": "C31",
   "status": "proved",
   "theorems": [
    "C31_flush",
    "C31_order",
    "C31_sent",
    "C31_order_partial"
   ],
   "note": "For sessions without the background thread (for it see C36_once_partial). Operations get lost if several datastores of another rank are used (C32_lost_refuted); those sent keep their order, and which are sent is stated exactly. Hypotheses: requests to other ranks reach them and fit the wire format, and no request is undefined behaviour."
  },
  {
   "property": "C32",
   "status": "partial",
   "theorems": [
    "C32_results_partial",
    "C32_sent_partial",
    "C32_lost_refuted",
    "C32_closed_refuted",
    "C32_getop_refuted"
   ],
   "note": "REFUTED: packets to two datastores of the same other rank overwrite each other; datastores that are not open give no results; a GETOP for no records is undefined behaviour. Proved otherwise, for PUT, GET, DELETE and HISTOGRAM; always one result for every operation that is sent (C31_sent says which)."
  },
  {
   "property": "C33",
   "status": "partial",
   "theorems": [
    "C33_one_map_partial",
    "C33_one_datastore_each",
    "C33_one_rank",
    "C33_left_partial",
    "C33_nothing_lost",
    "C33_unread_refuted"
   ],
   "note": "REFUTED with several datastores per rank. Proved for any number of clients taking turns, if no turn uses two datastores of the same other rank; always so with one datastore per rank or one rank. In general what is left of every turn takes effect on one map."
  },
  {
   "property": "C34",
   "status": "partial",
   "theorems": [
    "C34_close_drops_refuted",
    "C34_lost_refuted",
    "C34_closed"
   ],
   "note": "REFUTED: Close marks the session as not running before it calls Sync, which then does nothing. Proved in general: what is queued makes no difference to the cluster; after Close nothing is queued and every call fails."
  },
  {
   "property": "C35",
   "status": "partial",
   "theorems": [
    "C35_placed_partial",
    "C35_single_partial",
    "C35_put_refuted",
    "C35_bulk_refuted"
   ],
   "note": "REFUTED for hash functions that fail: bulk calls ignore it, a PUT may have queued some permutations. Proved when every pair has a datastore, and for single calls other than failing PUTs."
  },
  {
   "property": "C36",
   "status": "partial",
   "theorems": [
    "C36_once_partial",
    "C36_at_most_once_partial",
    "C36_results_partial",
    "C36_close_refuted",
    "C36_close_results_refuted"
   ],
   "note": "Proved for all schedules (with spurious wake-ups), programs and thresholds, for executions without the use after free of C38. REFUTED for PUTs that are not flushed before Close: they are dropped, or their results are."
  },
  {
   "property": "C37",
   "status": "partial",
   "theorems": [
    "C37_flush_waits_partial",
    "C37_terminates",
    "C37_no_deadlock"
   ],
   "note": "Termination bound and freedom from deadlock for all schedules; that a flush waits for everything is proved for executions without the use after free of C38."
  },
  {
   "property": "C38",
   "status": "partial",
   "theorems": [
    "C38_race_refuted",
    "C38_use_after_free_refuted",
    "C38_flushed_only_partial",
    "C38_race_empty_partial"
   ],
   "note": "REFUTED: a schedule with a data race and one with a use after free. Proved safe for programs that never queue max_queued PUTs."
  },
  {
   "property": "C39",
   "status": "partial",
   "theorems": [
    "C39_queues_partial",
    "C39_open_one_refuted",
    "C39_open_one_get_refuted",
    "C39_background_partial",
    "C39_background_refuted"
   ],
   "note": "REFUTED for OpenOne, which leaves no queues at all, and with the background thread when there are fewer range servers than datastores: it leaves one queue per range server. Proved for sessions opened by Open without the background thread; with it, exactly which PUTs are undefined."
  },
  {
   "property": "C40",
   "status": "partial",
   "theorems": [
    "C40_thallium_partial",
    "C40_thallium_behaviour",
    "C40_thallium_refuted",
    "C40_mpi_refuted"
   ],
   "note": "REFUTED: Thallium endpoints are numbered by range server but looked up by rank; the MPI transport never sends anything. Proved: exactly when Thallium reaches the right rank."
  },
  {
   "property": "C41",
   "status": "partial",
   "theorems": [
    "C41_names_partial",
    "C41_change_hash_refuted"
   ],
   "note": "REFUTED after ChangeHash, which gives the datastores one name. Proved for the names given when opening and by ChangeDatastoreName."
  },
  {
   "property": "C42",
   "status": "partial",
   "theorems": [
    "C42_registered_partial",
    "C42_builtin_partial",
    "C42_running_partial",
    "C42_known_refuted",
    "C42_second_refuted",
    "C42_silent",
    "C42_copies",
    "C42_numeric"
   ],
   "note": "REFUTED: a registration for any of the types hxhim knows is without effect, and so is a second registration for another type (emplace keeps the entry that is there), though it reports success. Proved for single registrations of other types."
  },
  {
   "property": "C43",
   "status": "partial",
   "theorems": [
    "C43_histogram_counts_partial",
    "C43_histogram_counts_refuted"
   ],
   "note": "REFUTED: values below the first boundary are counted in the total but in no bucket. Proved: exact total, and bucket sums equal to the number of values not below the first boundary."
  },
  {
   "property": "C44",
   "status": "partial",
   "theorems": [
    "C44_right_bucket",
    "C44_upper_end_refuted"
   ],
   "note": "REFUTED: the upper end starts at DBL_MIN (the smallest positive double), so for values below it none of them is reported. Proved: the bucket, and in C43_histogram_counts_partial the upper end up to that."
  },
  {
   "property": "C45",
   "status": "partial",
   "theorems": [
    "C45_histogram_wire_partial",
    "C45_histogram_wire_refuted"
   ],
   "note": "REFUTED: adding to an unpacked histogram that is still caching calls a null generator. Proved: everything else survives."
  },
  {
   "property": "C46",
   "status": "partial",
   "theorems": [
    "C46_histograms_apart_partial",
    "C46_histograms_apart_refuted",
    "C46_user_data_refuted",
    "C46_getop_refuted"
   ],
   "note": "REFUTED: histograms are stored among the user's triples with subject HISTOGRAM. Proved for GET of every other pair and for reading histograms back."
  },
  {
   "property": "C47",
   "status": "proved",
   "theorems": [
    "C47_histograms_track"
   ],
   "note": ""
  },
  {
   "property": "C48",
   "status": "partial",
   "theorems": [
    "C48_last_partial",
    "C48_ascii_partial",
    "C48_encoding_refuted"
   ],
   "note": "Proved for all sequences of sources whose files are ASCII. REFUTED for other bytes at the ends of a value: isspace gets a negative char, which is undefined."
  },
  {
   "property": "C49",
   "status": "partial",
   "theorems": [
    "C49_fill_partial",
    "C49_reader_partial",
    "C49_accepted_partial",
    "C49_incomplete_refuted",
    "C49_endpoints_refuted",
    "C49_hash_refuted",
    "C49_symbol_refuted",
    "C49_environment_refuted",
    "C49_threads_refuted"
   ],
   "note": "Proved for complete configurations with all ranks as endpoints. REFUTED otherwise: without DATASTORE everything after the ratios is dropped silently, endpoint lists hang or are rejected silently, HASH is ignored with the null transport, the default negative symbol is not the one meant, some settings cannot come from the environment, a Thallium thread count that cannot be read is replaced by another number silently."
  },
  {
   "property": "C50",
   "status": "proved",
   "theorems": [
    "C50_loop",
    "C50_position",
    "C50_accessors",
    "C50_histogram",
    "C50_histogram_served",
    "C50_histogram_unpacked",
    "C50_failed",
    "C50_no_list",
    "C50_append",
    "C50_added_undefined"
   ],
   "note": "For all lists and positions. The accessor of histograms needs a successful histogram result to have a histogram, which servers guarantee. Beyond the claim: after results are added the position is undefined until the next GoToHead."
  },
  {
   "property": "C51",
   "status": "partial",
   "theorems": [
    "C51_records_partial",
    "C51_count_partial",
    "C51_nodes_partial",
    "C51_pointers_partial",
    "C51_refines",
    "C51_zero_refuted",
    "C51_zero_pointers_refuted"
   ],
   "note": "Proved for answers with at least one record, with the memory of the nodes. REFUTED for answers without records: the only node is destroyed and then read."
  },
  {
   "property": "C52",
   "status": "partial",
   "theorems": [
    "C52_histogram_ids_partial",
    "C52_have",
    "C52_histogram_ids_refuted",
    "C52_have_refuted"
   ],
   "note": "REFUTED: ids are compared with the number of range servers, not of datastores; HaveHistogram of a null pointer with a length throws. Proved: exactly those ids are accepted, and they exist; HaveHistogram tells the names of a session."
  },
  {
   "property": "C53",
   "status": "partial",
   "theorems": [
    "C53_symbols_partial",
    "C53_symbols_refuted"
   ],
   "note": "REFUTED: the configuration accepts symbols that break values or order. Proved: of the accepted pairs, exactly those around the digits preserve both."
  },
  {
   "property": "C54",
   "status": "partial",
   "theorems": [
    "C54_bget_partial",
    "C54_bput_partial",
    "C54_bput_refuted",
    "C54_bgetop_refuted"
   ],
   "note": "REFUTED: BPUT of one type may execute early and its results are not returned; BGETOP of one type is always an error. Proved for BGET, and for BPUT below the limit."
  },
  {
   "property": "C55",
   "status": "proved",
   "theorems": [
    "C55_reopen"
   ],
   "note": ""
  },
  {
   "property": "C56",
   "status": "partial",
   "theorems": [
    "C56_defined_partial",
    "C56_refuted"
   ],
   "note": "REFUTED: the exponent of an infinity or NaN is converted to int, and a field shorter than the type is read past its end. Proved: defined exactly for finite values of sufficient length."
  },
  {
   "property": "C57",
   "status": "partial",
   "theorems": [
    "C57_parallel_partial",
    "C57_completed_put_partial",
    "C57_alone",
    "C57_left_partial",
    "C57_lost_refuted"
   ],
   "note": "REFUTED with several datastores per rank (packets get lost). Proved for all interleavings of any number of clients' requests, also that every Flush can complete, if no Flush uses two datastores of the same other rank; in general for what is left of every Flush; GETOPs that cannot fail included, each seeing the store as it is at one moment of its Flush. With the background thread: C79. Missing: GETOPs whose failure (C76) depends on what others do, histograms (C58)."
  },
  {
   "property": "C58",
   "status": "partial",
   "theorems": [
    "C58_snapshot_partial",
    "C58_overflow_refuted",
    "C58_garbage_refuted",
    "C58_local_refuted"
   ],
   "note": "REFUTED: the answer refers to the live histograms and is packed after the lock has been released, into a buffer sized before: one PUT in between makes the server write past the buffer or the client read uninitialised memory; a result from the own rank keeps changing. Proved for histograms that have their buckets or are not added to meanwhile."
  },
  {
   "property": "C59",
   "status": "partial",
   "theorems": [
    "C59_generators_partial",
    "C59_log_partial",
    "C59_first_values",
    "C59_scott_refuted",
    "C59_log_refuted",
    "C59_first_n_zero_refuted"
   ],
   "note": "REFUTED: Scott's rule never gives buckets (negative bucket count: undefined behaviour or none), the logarithmic rules are undefined for values 1 apart and give none for equal values, first_n 0 never gives any. Proved for every libm within SpecGen.good_glibm: 10_BUCKETS (any number of buckets), SQUARE_ROOT_CHOICE, STURGES_FORMULA and RICE_RULE always, the logarithmic rules for distances from 2 to 2^50."
  },
  {
   "property": "C60",
   "status": "partial",
   "theorems": [
    "C60_square_root_partial",
    "C60_sturges_partial",
    "C60_sturges_refuted",
    "C60_rice_refuted"
   ],
   "note": "REFUTED: Sturges' formula has one bucket too many for powers of two, the Rice rule always too few from 64 values on. Proved: square root below 2^48 values, Sturges otherwise below 2^30 values."
  },
  {
   "property": "C61",
   "status": "partial",
   "theorems": [
    "C61_open",
    "C61_fails_partial",
    "C61_success_refuted",
    "C61_terminate_refuted",
    "C61_null_comm_refuted",
    "C61_open_one_refuted"
   ],
   "note": "REFUTED: a datastore that cannot be opened is reported as HXHIM_SUCCESS because the error has the same number; with background PUTs any failure of Open ends the process (join of a thread that was never started); Init on MPI_COMM_NULL ends the process; OpenOne always reads the configuration it has just released. Proved: Open without failures, and a failing transport without background PUTs."
  },
  {
   "property": "C62",
   "status": "partial",
   "theorems": [
    "C62_memory_partial",
    "C62_session_partial",
    "C62_leak_refuted"
   ],
   "note": "REFUTED for Flushes that use two datastores of the same other rank (the first packet is lost). Proved for all other sequences of calls; the background thread is started and joined but its work is not part of this model."
  },
  {
   "property": "C63",
   "status": "partial",
   "theorems": [
    "C63_rejected_partial",
    "C63_running",
    "C63_undefined_refuted"
   ],
   "note": "REFUTED: Open, OpenOne, Flush and hxhim_results_destroy dereference the null pointer of a closed session. Proved for the other calls."
  },
  {
   "property": "C64",
   "status": "partial",
   "theorems": [
    "C64_collectives_partial",
    "C64_refuted"
   ],
   "note": "REFUTED if a datastore of one rank cannot be opened: the others wait in collective calls that it never makes. Proved if Open succeeds on all ranks."
  },
  {
   "property": "C65",
   "status": "partial",
   "theorems": [
    "C65_answers_partial",
    "C65_carried_partial",
    "C65_faults_partial",
    "C65_layouts_partial",
    "C65_requests_partial",
    "C65_exchange_partial",
    "C65_truncated_refuted",
    "C65_swapped_refuted",
    "C65_nothing_refuted",
    "C65_returned_refuted"
   ],
   "note": "REFUTED: the results of packing and unpacking are compared with the wrong constant, so that nothing is ever sent or returned; two threads of a rank (for example a background PUT and a Flush) can end the program with a truncated message or get each other's answers. Proved, for the code with the right constant and any other: if each rank has one sending thread and range servers are numbered like ranks, for any number of ranks, listeners, calls and steps. Closing a session while requests are on their way is not modelled."
  },
  {
   "property": "C66",
   "status": "partial",
   "theorems": [
    "C66_bounded_partial",
    "C66_stuck_partial",
    "C66_completes_partial",
    "C66_deadlock_refuted",
    "C66_ids_refuted"
   ],
   "note": "REFUTED: with one listener per range server and sends that wait for their receiver (large messages) three ranks that ask each other wait forever; if range servers are not numbered like ranks the answer is awaited from another rank than it comes from. Proved under the conditions of C65 if MPI buffers sends, or if every range server has as many listeners as there are clients; the bound on the number of steps needs no condition."
  },
  {
   "property": "C67",
   "status": "partial",
   "theorems": [
    "C67_memory",
    "C67_answers",
    "C67_ends",
    "C67_clients_partial",
    "C67_responses",
    "C67_exchange",
    "C67_late_refuted",
    "C67_gone_refuted",
    "C67_endpoint_refuted"
   ],
   "note": "Proved for every order of steps: no use after free, no double free, buffers left over are those of cleanups on their way, each request is carried out once and answered to its thread, runs are bounded and cannot get stuck; for clients of a connected cluster no fault before Close. REFUTED for the end of a session: a cleanup RPC may reach a rank that has closed, and so may a request of a background thread; and a request without an endpoint follows a null pointer if the message is logged and vanishes if not."
  },
  {
   "property": "C68",
   "status": "partial",
   "theorems": [
    "C68_exists_partial",
    "C68_succeeds",
    "C68_adds",
    "C68_short_refuted",
    "C68_file_refuted"
   ],
   "note": "Proved for all paths of at least two characters, all file systems and rights, and while other processes create directories: success means that the path exists, nothing disappears, nothing but the directories of the path is added, and it succeeds if no file is in the way. REFUTED: a path of one character is reported created and is not, and success is reported for a path that is a file."
  },
  {
   "property": "C69",
   "status": "partial",
   "theorems": [
    "C69_round_trip_partial",
    "C69_order",
    "C69_byte_refuted",
    "C69_edge_refuted"
   ],
   "note": "Round trip with any following characters and the count of characters for the 16, 32 and 64-bit types; order for all eight types and between types. Refuted for 8-bit types: decoding reads a character, so no value but 0, 53 and -53 comes back. Refuted for the smallest int16_t, which comes back as -6; the count of characters is not set for 0. hxhim uses the 32 and 64-bit types only."
  },
  {
   "property": "C70",
   "status": "partial",
   "theorems": [
    "C70_large_order_partial",
    "C70_large_round_trip_partial",
    "C70_large_beyond_refuted",
    "C70_small_order_partial",
    "C70_small_round_trip_partial",
    "C70_small_refuted"
   ],
   "note": "Large decimals: proved for all floats and doubles whose magnitude fits an int, all precisions; beyond, all positive numbers have one encoding, negative ones are undefined, infinity sorts before 3/2. Small decimals: proved up to one unit of the last digit below one; what rounds to one is written as zeroes and sorts before 1/2. hxhim itself uses neither (it uses floating_point, C10 and C11)."
  },
  {
   "property": "C71",
   "status": "partial",
   "theorems": [
    "C71_total",
    "C71_datastore_partial",
    "C71_encoded_partial",
    "C71_refuted"
   ],
   "note": "lex_comp on strings is a strict total order. Both functions agree with datastores on characters below 128, hence order encoded integers by value. Refuted for characters from 128, where plain char is signed: they disagree with datastores and with each other."
  },
  {
   "property": "C72",
   "status": "partial",
   "theorems": [
    "C72_calls_partial",
    "C72_getop_refuted",
    "C72_failed_refuted",
    "C72_packets",
    "C72_fill_partial",
    "C72_time"
   ],
   "note": "Packets and durations: proved for all histories of calls and flushes (foreground PUTs). Calls: proved if all pairs have datastores, except that a single GETOP is recorded among the bulk calls (refuted). Refuted: a call that fails for lack of a datastore is recorded as well. Fill rates: proved up to 2^46 operations per packet and 2^53 in all. The arithmetic of durations is that of the integers."
  },
  {
   "property": "C73",
   "status": "partial",
   "theorems": [
    "C73_puts",
    "C73_stored_partial",
    "C73_gets",
    "C73_getop_bytes",
    "C73_time",
    "C73_seconds",
    "C73_rate_partial",
    "C73_unit",
    "C73_rate_refuted",
    "C73_num_put_refuted",
    "C73_gets_refuted",
    "C73_get_bytes_refuted"
   ],
   "note": "Proved for all runs of both datastores: what is counted, with which bytes and times; durations; seconds and rates (long double, 64 bits of precision) up to 2^59 bytes per second. Refuted: GetStats counts requests, not PUTs; records of GETOPs, errors and histograms count as GETs (DELETEs are not reported); the bytes of GETs are those of the keys (InMemory) or none (LevelDB); with no time between clock readings the destructor reads UNITS[6]. Stored bytes: without histograms."
  },
  {
   "property": "C74",
   "status": "partial",
   "theorems": [
    "C74_times_partial",
    "C74_times_change_nothing",
    "C74_local_refuted",
    "C74_records_refuted",
    "C74_sync_refuted"
   ],
   "note": "Proved for all runs with foreground PUTs and messages of representable size. REFUTED: operations on datastores of the client's own rank lose the times of the hash function and the insertion (local::range_server moves them to a message that is thrown away); results of a GETOP after the first have no times (all zero), and those of Sync start the trip after it ended and never set the cleanup. Which operations get no result at all is C31 and C32."
  },
  {
   "property": "C75",
   "status": "partial",
   "theorems": [
    "C75_one_map_partial",
    "C75_number_partial",
    "C75_double_partial",
    "C75_float_partial",
    "C75_bput_partial",
    "C75_bget",
    "C75_lost_refuted",
    "C75_bput_nothing_refuted",
    "C75_bgetop_refuted"
   ],
   "note": "Proved for all turns of all clients of a cluster with one datastore in use per other rank, any codec, objects stored in the order subject, predicate, object; numbers within the ranges of C10; BPut below the queue limit (C54). REFUTED: numbers between -4e8 and -25e6 and others (C10) come back wrong through the whole system; GetFloat returns a double if one is stored; BPutFloat and BPutDouble of no objects are errors where BPut succeeds; BGetOpFloat and BGetOpDouble always fail."
  },
  {
   "property": "C76",
   "status": "partial",
   "theorems": [
    "C76_scans_partial",
    "C76_sound",
    "C76_first",
    "C76_one_datastore",
    "C76_first_refuted",
    "C76_empty_refuted",
    "C76_lowest_refuted"
   ],
   "note": "Proved for all turns of any number of clients with PUT, GET, GETOP and DELETE: a GETOP answers, exactly as described by SpecScan.reply, from the triples of the one map whose pairs have the datastore of its own pair; with a single datastore from all. REFUTED: with several datastores FIRST does not give the first triple of the store; FIRST of an empty datastore on another rank, and LOWEST of a pair that does not occur, are undefined behaviour. Missing as in C33: turns that use two datastores of the same other rank."
  },
  {
   "property": "C77",
   "status": "partial",
   "theorems": [
    "C77_lines",
    "C77_buffer_partial",
    "C77_results_partial",
    "C77_epoch",
    "C77_buffer_refuted",
    "C77_local_refuted",
    "C77_records_refuted",
    "C77_until_closed",
    "C77_closed_refuted"
   ],
   "note": "Proved: every line is read back, the times exactly and the duration within one part in 10^5; nothing printed is lost or repeated as long as the buffer is not asked for when empty; the first result of every operation sent to another rank prints its whole duration and its parts, with the readings taken for that operation; one that stays on the rank of the client prints the parts after the insertion. REFUTED: asking for an empty buffer fails the caller's stream, and what is printed later is lost while HXHIM_SUCCESS is returned; operations that stay on the client's rank, and the other records of a GETOP, print starts near 2^64 (the times were never set); destroying a result after Close reads a null pointer."
  },
  {
   "property": "C78",
   "status": "partial",
   "theorems": [
    "C78_same_partial",
    "C78_get",
    "C78_getop",
    "C78_asked_refuted",
    "C78_stored_refuted",
    "C78_print"
   ],
   "note": "Proved for all histories of PUTs, GETs, GETOPs, DELETEs and histogram requests of both datastores in which every type has a name. REFUTED: asking for a type without a name (10), or for an object stored with a type of the user's as another type, reads HXHIM_DATA_STR beyond its ten names as soon as warnings are logged. Not covered: rows that WriteHistograms stored, the values of which carry no type."
  },
  {
   "property": "C79",
   "status": "partial",
   "theorems": [
    "C79_explained_partial",
    "C79_flushed_partial",
    "C79_completes_partial"
   ],
   "note": "The two threads of C36-C38 together with the requests of C57. Missing: executions with the use after free of C38, programs whose PUTs use two datastores of the same other rank (C32), GETOPs whose failure depends on what others do, histograms; the last PUT of a pair is stated for pairs that no other client has changed. Requests are those of the Thallium transport; with MPI two threads of a rank may not send at the same time (C65)."
  },
  {
   "property": "C80",
   "status": "partial",
   "theorems": [
    "C80_buffer_partial",
    "C80_line",
    "C80_found_partial",
    "C80_found_refuted"
   ],
   "note": "Proved for all buffers, masks and messages, with one thread. The buffer is found if nothing before it in the memory begins with its magic string, and if all of it is there. REFUTED: the check of the end leaves out the 24 bytes of the header, so memory that ends within the buffer gives pieces beyond its end. Not modelled: log file, syslog and UDP console, which get the same line; threads (the buffer is changed under the mutex of the logger)."
  },
  {
   "property": "C81",
   "status": "partial",
   "theorems": [
    "C81_levels_partial",
    "C81_names",
    "C81_printed",
    "C81_facilities_partial",
    "C81_text_partial",
    "C81_text_refuted",
    "C81_number",
    "C81_part",
    "C81_session_partial",
    "C81_session_refuted",
    "C81_stdout_refuted"
   ],
   "note": "Proved for all sequences of calls with facilities that are not negative (mlog_setlogmask(-1) writes before the array), texts of entries with known priorities, and sessions that do not overlap, with a level that is a priority and not 0. REFUTED: a facility without a name is written as its number, which mlog_setmasks does not read; of two sessions open in one process the first sets the level and closing either silences both; lines on stdout leave out the date if stderr is a terminal. Not modelled: what mlog_setmasks itself logs about unknown entries; threads."
  },
  {
   "property": "C82",
   "status": "partial",
   "theorems": [
    "C82_lines_partial",
    "C82_half_refuted",
    "C82_loose_refuted",
    "C82_negative_refuted",
    "C82_bgetop_refuted",
    "C82_session_partial",
    "C82_scans_partial",
    "C82_commands_partial",
    "C82_flushes",
    "C82_getop_refuted"
   ],
   "note": "Proved: every line of the language adds the commands it means whatever the other lines are, lines that start with no command are reported and add nothing, commands and flushes (also of one kind) in any order give the results of one map, GETOPs those of C76. REFUTED: a bulk command with an error is run up to the error, words too many and words run together are accepted, -1 is accepted for unsigned types, BGETOP is rejected in the form the help text gives, GETOP for 0 records has undefined behaviour. Reading inf, nan and hexadecimal numbers is not modelled."
  },
  {
   "property": "C83",
   "status": "partial",
   "theorems": [
    "C83_values_partial",
    "C83_lines_partial",
    "C83_session_partial",
    "C83_text_partial",
    "C83_unsigned_refuted",
    "C83_bytes_refuted",
    "C83_floats_refuted",
    "C83_infinite_refuted"
   ],
   "note": "Proved for signed integers, unsigned integers below 2^31 (2^63), bytes without zeros, finite numbers, and for all results of all commands with such values, GETOPs and flushes of one kind included, from the text that is typed in to the lines that are printed. REFUTED: unsigned integers are printed as signed ones, bytes are cut at a zero, small floats that differ print the same."
  },
  {
   "property": "C84",
   "status": "partial",
   "theorems": [
    "C84_left",
    "C84_get",
    "C84_getop_partial",
    "C84_lowest_partial",
    "C84_integers",
    "C84_floats",
    "C84_highest_refuted",
    "C84_type_refuted",
    "C84_between_refuted"
   ],
   "note": "Proved for all callbacks and histories, GETOP for what can be read back and for the requests of answerable; LOWEST of numbers of one type if every other row that starts with the subject comes after the numbers, which holds if what follows the subject starts above the positive symbol. REFUTED: HIGHEST finds none of the numbers; the type does not select, so rows with other predicates are returned when there are fewer numbers than asked for; subjects that start with the one asked for are taken for it."
  },
  {
   "property": "C85",
   "status": "partial",
   "theorems": [
    "C85_moves_partial",
    "C85_one_each",
    "C85_turns",
    "C85_objects_partial",
    "C85_alone",
    "C85_own_put_refuted"
   ],
   "note": "Proved for all interleavings of any number of clients without background thread; with one datastore per range server and without GETOPs nothing else is assumed; in general no flush may use two datastores of the same other rank (C33 says what is lost then), and GETOPs are those of C76. BPutSingleType, Sync and histograms are left out. REFUTED: a GET made after a PUT of the same pair misses it if only GETs are flushed."
  },
  {
   "property": "C86",
   "status": "partial",
   "theorems": [
    "C86_lowest_partial",
    "C86_others_refuted",
    "C86_highest_refuted",
    "C86_wide_refuted",
    "C86_high_refuted",
    "C86_lost_refuted",
    "C86_tail_refuted"
   ],
   "note": "Proved for LOWEST asked by the rank of datastore 0, for square grids and grids with num_x = 1, ranks storing one after the other. REFUTED: asked by another rank the request has undefined behaviour (witness); HIGHEST has undefined behaviour (witness); for every grid with num_x > num_y the program writes outside its array; with 2 <= num_x < num_y cells share their memory, for every such grid and every y from num_x below 2 * num_x and num_y the cell (0, y) is never stored, and names can be stored with the end of an older one (witness)."
  },
  {
   "property": "C87",
   "status": "partial",
   "theorems": [
    "C87_program",
    "C87_hx_partial",
    "C87_one_each",
    "C87_numbers_partial",
    "C87_exact_refuted",
    "C87_lines",
    "C87_output_partial"
   ],
   "note": "Proved for all interleavings of the ranks (the barriers are not needed) and all numbers that come back at all (fourteen digits for those of C10); with one datastore per range server nothing else is assumed, in general no flush may use two datastores of the same other rank (C33). REFUTED: that the numbers shown are those stored (1/3 comes back as something else). What print_results of hx.cpp and of hx.c print of the three flushes is proved line by line; the numbers printed are the numbers PUT to fourteen digits. Missing: numbers that are no finite doubles (rand may return 0), other output."
  },
  {
   "property": "C88",
   "status": "partial",
   "theorems": [
    "C88_moves_partial",
    "C88_one_each",
    "C88_others"
   ],
   "note": "Proved for all interleavings of any number of clients without background thread and without GETOPs; with one datastore per range server nothing else is assumed, in general no flush (and no BPUT at the limit) may use two datastores of the same other rank (C33)."
  },
  {
   "property": "C89",
   "status": "partial",
   "theorems": [
    "C89_puts_partial",
    "C89_alone_partial",
    "C89_seed_refuted"
   ],
   "note": "Proved for all interleavings of the ranks (no barrier needed before the end); in general no flush may use two datastores of the same other rank (C33). REFUTED: that the ranks together store as many pairs as they report; srand is not called, so that where rand starts the same way in every process all ranks store the same pairs. Missing: times and rates that are printed."
  },
  {
   "property": "C90",
   "status": "partial",
   "theorems": [
    "C90_once",
    "C90_released",
    "C90_local",
    "C90_full",
    "C90_zero_refuted",
    "C90_reuse"
   ],
   "note": "Proved for all sequences of operations within the room of the messages. The bytes that Blobs own are C24's; serialization (C21, C22) and the buffers of the transports are not part of this model. REFUTED: that the count may be set to 0 without stealing the records (witness: three arrays are left). C90_full and C90_reuse state what the code does where it checks nothing: undefined behaviour, and a size that counts old contents."
  },
  {
   "property": "C91",
   "status": "partial",
   "theorems": [
    "C91_latest",
    "C91_unset",
    "C91_refused",
    "C91_objects",
    "C91_closed",
    "C91_comm_refuted",
    "C91_stale_refuted",
    "C91_null_refuted",
    "C91_string_refuted",
    "C91_again_refuted"
   ],
   "note": "Proved for all orderly lives of a session (no Init of an existing one, no null strings, no hxhim_set_transport_mpi without a session, Open only of existing ones and successful). REFUTED: that refused calls change nothing (MPI_COMM_NULL is stored), that all setters may be called without a session (hxhim_set_transport_mpi), that null strings are refused, that MPI options follow the communicator, and that Init may be repeated. Setting transforms is C42; reading configurations is C49."
  },
  {
   "property": "C92",
   "status": "partial",
   "theorems": [
    "C92_same",
    "C92_cache",
    "C92_cleared",
    "C92_zero",
    "C92_print",
    "C92_stale_refuted",
    "C92_reset_refuted"
   ],
   "note": "Proved for all values and generators: histograms that are never cleared are those of C43-C45; after clear there are no buckets and no values, and pack and unpack give an empty histogram of the same name; without a limit on the first values, clear gives back a new histogram; print never reads outside the arrays. REFUTED that a cleared histogram with a limit is like a new one: clear sets the limit to 0 and leaves the cache, so the next value makes the buckets, out of the first value from before clear (0 if there was none)."
  }
 ]
}