{
 "claims": [
  {
   "property": "C01",
   "status": "proved",
   "theorems": [
    "C01_maxflow_optimal"
   ],
   "note": "all graphs built by the API; flows are unbounded integers shown to stay within capacities"
  },
  {
   "property": "C02",
   "status": "proved",
   "theorems": [
    "C02_flow_feasible",
    "C02_no_underflow",
    "C02_capacities"
   ],
   "note": ""
  },
  {
   "property": "C03",
   "status": "proved",
   "theorems": [
    "C03_terminates"
   ],
   "note": ""
  },
  {
   "property": "C04",
   "status": "proved",
   "theorems": [
    "C04_lifecycle"
   ],
   "note": "exceptions leave the modelled object unchanged because the code checks before writing"
  },
  {
   "property": "C05",
   "status": "proved",
   "theorems": [
    "C05_parallel_maxflow"
   ],
   "note": "jobs interleave at the granularity of one loop iteration; C72 interleaves single memory accesses"
  },
  {
   "property": "C06",
   "status": "proved",
   "theorems": [
    "C06_capacity"
   ],
   "note": ""
  },
  {
   "property": "C07",
   "status": "proved",
   "theorems": [
    "C07_accounting"
   ],
   "note": ""
  },
  {
   "property": "C08",
   "status": "proved",
   "theorems": [
    "C08_minimal_stash"
   ],
   "note": "lower bound over all assignments via the residual cut"
  },
  {
   "property": "C09",
   "status": "proved",
   "theorems": [
    "C09_guards"
   ],
   "note": ""
  },
  {
   "property": "C10",
   "status": "proved",
   "theorems": [
    "C10_roundtrip",
    "C10_roundtrip_narrow",
    "C10_narrow_refuted",
    "C10_padding",
    "C10_padding_refuted"
   ],
   "note": "proved for the configurations of the repository (8-byte values, whole words); with narrower values it needs room for a length at the end of the page and is refuted without; refuted when padding is needed"
  },
  {
   "property": "C11",
   "status": "proved",
   "theorems": [
    "C11_page_fits",
    "C11_build_never_aborts",
    "C11_padding_refuted"
   ],
   "note": "for key and value sizes without padding; refuted with padding"
  },
  {
   "property": "C12",
   "status": "proved",
   "theorems": [
    "C12_split_exact"
   ],
   "note": ""
  },
  {
   "property": "C13",
   "status": "proved",
   "theorems": [
    "C13_transparent",
    "C13_nonces_distinct",
    "C13_pages"
   ],
   "note": "for every keystream function of the right length"
  },
  {
   "property": "C14",
   "status": "proved",
   "theorems": [
    "C14_stash_roundtrip"
   ],
   "note": ""
  },
  {
   "property": "C15",
   "status": "proved",
   "theorems": [
    "C15_store_lookup"
   ],
   "note": "plain and encrypted pages; refused lists included"
  },
  {
   "property": "C16",
   "status": "proved",
   "theorems": [
    "C16_empty_list_refuted",
    "C16_empty_lists_last"
   ],
   "note": "the property is false of the code: refuted; it holds when empty lists are inserted last"
  },
  {
   "property": "C17",
   "status": "proved",
   "theorems": [
    "C17_search",
    "C17_after_build",
    "C17_failed",
    "C17_counter",
    "C17_identity_hasher",
    "C17_multiple_refuted"
   ],
   "note": "proved for databases in which the lists that fill their blocks exactly are inserted last; refuted otherwise"
  },
  {
   "property": "C18",
   "status": "proved",
   "theorems": [
    "C18_delivered",
    "C18_serial",
    "C18_failed_read",
    "C18_store",
    "C18_race_refuted"
   ],
   "note": "the property is false of the code: a schedule follows a null pointer, and a failed read is never reported; every execution that is not undefined delivers once and correctly, and serial completions are never undefined"
  },
  {
   "property": "C19",
   "status": "proved",
   "theorems": [
    "C19_conserved",
    "C19_exactly_one"
   ],
   "note": ""
  },
  {
   "property": "C20",
   "status": "proved",
   "theorems": [
    "C20_walk"
   ],
   "note": ""
  },
  {
   "property": "C21",
   "status": "proved",
   "theorems": [
    "C21_lookup",
    "C21_distinct",
    "C21_existing",
    "C21_oceanus_hash",
    "C21_absent_refuted"
   ],
   "note": "false for the key made of 0xFF bytes when it was not inserted: refuted; proved for all other keys"
  },
  {
   "property": "C22",
   "status": "proved",
   "theorems": [
    "C22_no_spill",
    "C22_refuted"
   ],
   "note": "the property is false of the code: refuted; holds when nothing spilled, and C21_distinct shows that every spilled key is lost"
  },
  {
   "property": "C23",
   "status": "proved",
   "theorems": [
    "C23_once",
    "C23_value",
    "C23_table",
    "C23_race_refuted"
   ],
   "note": "unless both slots match the key, which happens for the key made of 0xFF bytes: refuted for it"
  },
  {
   "property": "C24",
   "status": "proved",
   "theorems": [
    "C24_history",
    "C24_reopen",
    "C24_reserved_refuted",
    "C24_empty_refuted",
    "C24_direct_refuted"
   ],
   "note": "reopening is refuted for over-reserved and for empty vectors, and a change of access mode before the commit is refuted"
  },
  {
   "property": "C25",
   "status": "proved",
   "theorems": [
    "C25_committed",
    "C25_uncommitted_get",
    "C25_async_push_refuted"
   ],
   "note": "false for async_push_back, which is not checked: refuted; proved for all other calls"
  },
  {
   "property": "C26",
   "status": "proved",
   "theorems": [
    "C26_out_of_range",
    "C26_async",
    "C26_truncated",
    "C26_reserved_refuted"
   ],
   "note": "false at index = size when more room is reserved than used: refuted; proved otherwise"
  },
  {
   "property": "C27",
   "status": "proved",
   "theorems": [
    "C27_refuted",
    "C27_sync_keeps"
   ],
   "note": "the property is false of the code: refuted; synchronous pushes without reservation are kept"
  },
  {
   "property": "C28",
   "status": "proved",
   "theorems": [
    "C28_async_pushes",
    "C28_settled",
    "C28_mixed_refuted"
   ],
   "note": "false when mixed with push_back: refuted"
  },
  {
   "property": "C29",
   "status": "proved",
   "theorems": [
    "C29_search",
    "C29_rocksdb",
    "C29_short",
    "C29_cuckoo_wrong",
    "C29_padding_refuted",
    "C29_spill_refuted"
   ],
   "note": "Exact answer proved for both hash tables. True with the RocksDB table (C29_rocksdb) and for lists shorter than a block (C29_short). False with the cuckoo table of DefaultPlutoParams: every complete block comes with spurious zeros (C29_cuckoo_wrong, for all databases; witness C29_padding_refuted), and a spilled block hides the later ones (C29_spill_refuted)."
  },
  {
   "property": "C30",
   "status": "proved",
   "theorems": [
    "C30_blocks",
    "C30_rocksdb",
    "C30_spill_refuted",
    "C30_zero_elements"
   ],
   "note": "The number of blocks given to the table is a function of the declared number of elements (C30_blocks, C30_rocksdb). The number of blocks kept by the cuckoo table is not, because of spills (C30_spill_refuted). With zero declared elements the loop runs over 2^49 blocks (C30_zero_elements)."
  },
  {
   "property": "C31",
   "status": "proved",
   "theorems": [
    "C31_counters",
    "C31_nth_increment",
    "C31_wrap_refuted"
   ],
   "note": "all histories of calls whose values stay below 2^32; wraps at the end of the range"
  },
  {
   "property": "C32",
   "status": "proved",
   "theorems": [
    "C32_refuted",
    "C32_serialised"
   ],
   "note": "the property is false of the code: refuted; proved for serialised calls"
  },
  {
   "property": "C33",
   "status": "proved",
   "theorems": [
    "C33_sophos_search"
   ],
   "note": ""
  },
  {
   "property": "C34",
   "status": "proved",
   "theorems": [
    "C34_search_parallel",
    "C34_search_parallel_callback",
    "C34_search_parallel_light",
    "C34_search_callback",
    "C34_zero_threads_refuted",
    "C34_256_threads_refuted"
   ],
   "note": "1 to 255 RSA threads and non-empty pools, any schedule; refuted for 0 threads and for 256 hardware threads"
  },
  {
   "property": "C35",
   "status": "proved",
   "theorems": [
    "C35_sophos_lost_updates",
    "C35_diana_lost_updates"
   ],
   "note": ""
  },
  {
   "property": "C36",
   "status": "proved",
   "theorems": [
    "C36_sophos_refuted",
    "C36_diana_refuted"
   ],
   "note": "the property is false of the code: refuted at 2^32 insertions; C33/C35/C37 cover all smaller numbers"
  },
  {
   "property": "C37",
   "status": "proved",
   "theorems": [
    "C37_diana_search"
   ],
   "note": ""
  },
  {
   "property": "C38",
   "status": "proved",
   "theorems": [
    "C38_search_parallel",
    "C38_terminates",
    "C38_zero_threads_refuted"
   ],
   "note": "1 to 255 threads, any schedule, with and without deletion; refuted for 0 threads"
  },
  {
   "property": "C39",
   "status": "proved",
   "theorems": [
    "C39_refuted",
    "C39_off_by_one"
   ],
   "note": "the property is false of the code: refuted; the count is always one too small"
  },
  {
   "property": "C40",
   "status": "proved",
   "theorems": [
    "C40_delete_results",
    "C40_callback"
   ],
   "note": ""
  },
  {
   "property": "C41",
   "status": "proved",
   "theorems": [
    "C41_search",
    "C41_runs",
    "C41_exact",
    "C41_refuted",
    "C41_same_position"
   ],
   "note": "the property is false of the code for two removals on a keyword between two searches: refuted; proved for all other histories (at most one removal per keyword and epoch), sequential and parallel searches mixed; exact behaviour given with re-insertions and lost requests"
  },
  {
   "property": "C42",
   "status": "proved",
   "theorems": [
    "C42_reinsertion",
    "C42_reinsertion_not_found",
    "C42_refuted"
   ],
   "note": "the property is false of the code within one epoch (for every instance of the cryptography): refuted; proved when a search separates removal and re-insertion"
  },
  {
   "property": "C43",
   "status": "proved",
   "theorems": [
    "C43_repeated",
    "C43_parallel"
   ],
   "note": "all histories, also those on which C41 fails"
  },
  {
   "property": "C44",
   "status": "proved",
   "theorems": [
    "C44_lost_when_quiet",
    "C44_insertions_dropped",
    "C44_removals_dropped",
    "C44_refuted"
   ],
   "note": "the property is false of the code: refuted; a lost request is harmless only if nothing happened since the last search"
  },
  {
   "property": "C45",
   "status": "proved",
   "theorems": [
    "C45_meta_keyword_injective",
    "C45_keyword_doc_injective"
   ],
   "note": ""
  },
  {
   "property": "C46",
   "status": "proved",
   "theorems": [
    "C46_roundtrip",
    "C46_absent",
    "C46_short_tags_refuted",
    "C46_truncated_undefined"
   ],
   "note": "tags of at least 8 bytes (16 in the library)"
  },
  {
   "property": "C47",
   "status": "proved",
   "theorems": [
    "C47_exactly_once",
    "C47_joined",
    "C47_no_refusal",
    "C47_stopped_accepts_nothing",
    "C47_no_deadlock",
    "C47_no_lost_wakeup",
    "C47_terminates"
   ],
   "note": "chains of pools of any length, any schedule, spurious wake-ups included in the safety part"
  },
  {
   "property": "C48",
   "status": "proved",
   "theorems": [
    "C48_exactly_once",
    "C48_none_pending",
    "C48_wait",
    "C48_wait_snapshot",
    "C48_no_deadlock",
    "C48_terminates",
    "C48_completes"
   ],
   "note": "Thread-pool scheduler, every interleaving with spurious wake-ups, callbacks may submit; exactly once, results those of the system calls in some serial order, wait_completions returns only when nothing is pending, no deadlock with at least one pool thread, termination without spurious wake-ups when callbacks submit finitely often."
  },
  {
   "property": "C49",
   "status": "proved",
   "theorems": [
    "C49_aligned",
    "C49_refused",
    "C49_accepted",
    "C49_at_most_once",
    "C49_all_notified",
    "C49_can_finish",
    "C49_closed",
    "C49_error_early_refuted",
    "C49_error_hang_refuted"
   ],
   "note": "Holds when io_getevents does not fail and no submission is in progress when wait_completions is called (the documented invariant). Refuted when io_getevents returns an error such as -EINTR: the negative value is added to the counter, so that the loop stops too early or never."
  },
  {
   "property": "C50",
   "status": "proved",
   "theorems": [
    "C50_diana_success",
    "C50_sophos_success",
    "C50_no_effect_retry",
    "C50_diana_crash",
    "C50_sophos_crash",
    "C50_never_again",
    "C50_setup_refuted",
    "C50_sophos_setup_refuted",
    "C50_incomplete_answers_refuted",
    "C50_write_refuted",
    "C50_race_refuted",
    "C50_search_defined"
   ],
   "note": "The property is false of the code: a setup that fails or is interrupted after mkdir leaves a directory with which no setup ever succeeds (C50_never_again, C50_setup_refuted, C50_sophos_setup_refuted); after a Diana setup with a key of a wrong size the server accepts insertions and follows a null pointer in searches; write errors are reported as successes. What holds: a success whose bytes reach the disk leaves a complete state, an interrupted Diana setup is never restarted with a part of the key, a setup without any effect can be retried."
  },
  {
   "property": "C51",
   "status": "proved",
   "theorems": [
    "C51_throws",
    "C51_counter",
    "C51_refuted",
    "C51_sophos_searches",
    "C51_diana_searches",
    "C51_sync_refuted"
   ],
   "note": "The call always throws, but the counter of the keyword has been incremented (C51_counter, C51_refuted). Later searches answer as if the call had not been made, for Sophos and for the asynchronous search of Diana; the synchronous search of Diana returns a spurious document (C51_sync_refuted)."
  },
  {
   "property": "C52",
   "status": "proved",
   "theorems": [
    "C52_documents",
    "C52_group",
    "C52_rand",
    "C52_zero_threads",
    "C52_group_refuted",
    "C52_rand_refuted",
    "C52_float",
    "C52_rand_groups",
    "C52_rand_drawn"
   ],
   "note": "Number of documents and absence of division by zero proved for all sizes, thread counts and streams; the group bound holds as long as a thread does not exhaust the 32-bit counter of the group, and is refuted beyond. The same bound for the random groups is refuted: the groups of 10^2 documents use the keywords of those of 10^3."
  },
  {
   "property": "C53",
   "status": "proved",
   "theorems": [
    "C53_sophos",
    "C53_diana",
    "C53_mask_matters"
   ],
   "note": ""
  },
  {
   "property": "C54",
   "status": "proved",
   "theorems": [
    "C54_concat",
    "C54_both_null",
    "C54_empty_first_refuted"
   ],
   "note": ""
  },
  {
   "property": "C55",
   "status": "proved",
   "theorems": [
    "C55_components_first_refuted"
   ],
   "note": "the property is false of the code: refuted"
  },
  {
   "property": "C56",
   "status": "proved",
   "theorems": [
    "C56_built_is_final"
   ],
   "note": ""
  },
  {
   "property": "C57",
   "status": "proved",
   "theorems": [
    "C57_moved",
    "C57_move_refuted"
   ],
   "note": "the property is false of the code: refuted"
  },
  {
   "property": "C58",
   "status": "proved",
   "theorems": [
    "C58_quiescent",
    "C58_destructor_refuted"
   ],
   "note": "The property is false: wait_completions reads the counter without the lock, so it can return while a pool thread is about to notify and to release the lock of the scheduler; refuted with a witness. What holds: no callback, system call or pending request remains, and one thread at most is in that window."
  },
  {
   "property": "C59",
   "status": "proved",
   "theorems": [
    "C59_shared_pool_refuted",
    "C59_shared_pool",
    "C59_first_alone"
   ],
   "note": "The property is false: the pool is created lazily without synchronisation; refuted with a witness. It holds when the first submission does not overlap with others."
  },
  {
   "property": "C60",
   "status": "proved",
   "theorems": [
    "C60_no_wait",
    "C60_lost_wakeup_refuted"
   ],
   "note": "The property is false: the wake-up can be lost; refuted with a state from which the call never returns whatever happens. What holds: no submission waits when all requests fit in the context."
  },
  {
   "property": "C61",
   "status": "proved",
   "theorems": [
    "C61_single",
    "C61_batch_refuted"
   ],
   "note": "True for submit_pread and submit_pwrite; false for submit_preads, refuted with a witness (partial acceptance followed by an error)."
  },
  {
   "property": "C62",
   "status": "proved",
   "theorems": [
    "C62_roundtrip",
    "C62_refuted",
    "C62_short_refuted"
   ],
   "note": "The property is false of the code: a long field is written past the end of an array, a short one leaves uninitialised bytes. Decoding inverts encoding for fields of the right sizes."
  },
  {
   "property": "C63",
   "status": "proved",
   "theorems": [
    "C63_fresh",
    "C63_refuted",
    "C63_unusable"
   ],
   "note": "The property is false of the code: after a failed setup call, a second construction with the same path succeeds without any call to the server. It holds when the directory of the client does not exist."
  },
  {
   "property": "C64",
   "status": "proved",
   "theorems": [
    "C64_sophos",
    "C64_diana"
   ],
   "note": "For every execution of a small-step model in which each counter access, delivery and look-up is one step; the keyword searched is inserted by one thread at a time, the others may be shared."
  },
  {
   "property": "C65",
   "status": "proved",
   "theorems": [
    "C65_sophos",
    "C65_diana",
    "C65_sophos_refuted",
    "C65_diana_refuted"
   ],
   "note": "Holds when each keyword is in one list of the index. False otherwise: two jobs with the same keyword read the same counter, and one document is lost."
  },
  {
   "property": "C66",
   "status": "proved",
   "theorems": [
    "C66_sophos",
    "C66_diana"
   ],
   "note": "Exact results of a late answer; no delivery for the keyword during the look-ups themselves (C64 covers that case)."
  },
  {
   "property": "C67",
   "status": "proved",
   "theorems": [
    "C67_size",
    "C67_positive",
    "C67_large_refuted",
    "C67_overflow_refuted",
    "C67_zero_refuted",
    "C67_nan_refuted"
   ],
   "note": "Binary64 arithmetic of Flocq; uses the axioms of the standard library for real numbers (DESIGN.md). Holds for finite nonnegative epsilon, at most 2^53 elements and a size of at most 2^63; refuted outside: size below the number of elements, undefined conversion, size zero."
  },
  {
   "property": "C68",
   "status": "proved",
   "theorems": [
    "C68_size",
    "C68_zero_refuted",
    "C68_large_refuted",
    "C68_overflow_refuted"
   ],
   "note": "Same remarks as C67."
  },
  {
   "property": "C69",
   "status": "proved",
   "theorems": [
    "C69_percentiles",
    "C69_partition",
    "C69_float"
   ],
   "note": "The documents are those of the calls for the groups of ten, which get each document once (C52_documents)."
  },
  {
   "property": "C70",
   "status": "proved",
   "theorems": [
    "C70_safe",
    "C70_in_flight",
    "C70_leak",
    "C70_no_leak",
    "C70_called",
    "C70_partial_refuted",
    "C70_abort_refuted",
    "C70_leak_read_refuted",
    "C70_leak_index_refuted",
    "C70_leak_push_refuted",
    "C70_index"
   ],
   "note": "Safety and callbacks hold when a call is accepted or refused as a whole, and the buffers that stay allocated are exactly characterised (C70_leak). False otherwise: with a partial submission the buffers in flight are freed; failed reads of async_gets, wrong indices and refused writes leak."
  },
  {
   "property": "C71",
   "status": "proved",
   "theorems": [
    "C71_sophos",
    "C71_sophos_recovers",
    "C71_diana",
    "C71_janus_fresh",
    "C71_sophos_read_refuted",
    "C71_sophos_store_refuted",
    "C71_diana_read_refuted",
    "C71_janus_reuse",
    "C71_janus_set_refuted",
    "C71_janus_read_refuted"
   ],
   "note": "Exact behaviour of Sophos and Diana when any of the writes, and any of the reads other than that of the counter by an insertion, may fail. The property is false of the code: a failed read of the counter by an insertion resets the counter and loses the documents inserted before; a failed write of the server is reported as a success; in Janus a failed write of the search counter makes a token be used twice, and a failed read of it loses the document."
  },
  {
   "property": "C72",
   "status": "proved",
   "theorems": [
    "C72_single_accesses",
    "C72_races",
    "C72_no_race_refuted"
   ],
   "note": "Termination, safety and a result independent of the interleaving, even if a racy read returns anything. The absence of data races is false: every job reads the flows of all the edges that leave the source, while the job of another component writes them (C72_no_race_refuted); these are the only races, and the value read is not used (C72_races)."
  },
  {
   "property": "C73",
   "status": "proved",
   "theorems": [
    "C73_diana_keys",
    "C73_diana_reopen",
    "C73_diana_reopen_refuted",
    "C73_sophos_keys",
    "C73_sophos_reopen_refuted"
   ],
   "note": "The keys never change (for Sophos assuming that a truncated secret key is refused or read as the same key). Completely written keys can be reopened. The second part is false in general: a short write is not noticed, so that a client may be constructed, used, and never be constructed again; after a crash during the first construction no client can be constructed on the path."
  },
  {
   "property": "C74",
   "status": "proved",
   "theorems": [
    "C74_sophos_answer",
    "C74_sophos_known",
    "C74_sophos_request_refuted",
    "C74_sophos_crash_refuted",
    "C74_diana_sent"
   ],
   "note": "True of the answers, and of the messages for known keywords. False of the messages for unknown keywords in Sophos: they are copies of uninitialised memory, and may terminate the server if the trapdoor permutation throws on them. Diana sends nothing for an unknown keyword."
  },
  {
   "property": "C75",
   "status": "proved",
   "theorems": [
    "C75_confined",
    "C75_removed",
    "C75_works",
    "C75_dangling_refuted",
    "C75_error_refuted"
   ],
   "note": "True unless the path is a dangling link (true is returned, the link stays) or fts_read fails (its null pointer is taken for the end of the traversal)."
  },
  {
   "property": "C76",
   "status": "proved",
   "theorems": [
    "C76_sophos_updates_hidden",
    "C76_sophos_requests"
   ],
   "note": "Forward privacy, information-theoretic: a bijection of the PRFs, the identity outside the hidden inputs, maps the view of one history to that of the other. Non-adaptive histories; that the server cannot compute the hidden inputs from the tokens (one-wayness of the trapdoor permutation) is an assumption about cryptography and not stated; C76_sophos_requests shows that no request covers one."
  },
  {
   "property": "C77",
   "status": "proved",
   "theorems": [
    "C77_diana_updates_hidden",
    "C77_diana_requests"
   ],
   "note": "As C76 for Diana, with bulk insertions, lost updates and deleting searches; the security of the constrained PRF is not stated, C77_diana_requests shows that no constrained key covers a hidden leaf."
  },
  {
   "property": "C78",
   "status": "proved",
   "theorems": [
    "C78_tethys_hidden",
    "C78_same_key",
    "C78_same_key_refuted",
    "C78_pluto_hidden",
    "C78_pluto_refuted"
   ],
   "note": "C78_tethys_hidden: a bijection of the keystreams, the identity outside the nonces of the pages, maps the view of one database to that of the other. C78_same_key(_refuted): the nonce is the page index only, so that two builds under one key reveal the difference of the pages. C78_pluto_hidden: only the rests of the lists are hidden; C78_pluto_refuted: two databases with the same keywords and list lengths that no server confuses, since complete blocks are stored unencrypted in the hash table."
  },
  {
   "property": "C79",
   "status": "proved",
   "theorems": [
    "C79_janus_updates_hidden"
   ],
   "note": "Two bijections of generators, the identity outside the leaves of the hidden insertions and removals, map the view of one history to that of the other. Searches all reach the server; the parallel search is not covered (its view depends on the schedule)."
  },
  {
   "property": "C80",
   "status": "proved",
   "theorems": [
    "C80_one_setup",
    "C80_server_kept",
    "C80_sophos_search",
    "C80_progress",
    "C80_ends",
    "C80_race",
    "C80_diana_search_refuted",
    "C80_race_refuted"
   ],
   "note": "mkdir decides between concurrent setups. Refuted parts: a search of Diana between the creation of the server and that of the token wrapper dereferences a null pointer (C80_diana_search_refuted); requests read server_ while a setup writes it (C80_race_refuted; C80_race: only during the setup that made the directory)."
  },
  {
   "property": "C81",
   "status": "proved",
   "theorems": [
    "C81_complete",
    "C81_interrupted",
    "C81_progress",
    "C81_refuted",
    "C81_torn_refuted"
   ],
   "note": "Full statement refuted: ftruncate gives the file its final size before the pages are written (C81_refuted). Proved: no wrong value for keys other than 00..0 and FF..F, monotone in the point of death; writes are atomic there, C81_torn_refuted shows this is needed."
  },
  {
   "property": "C82",
   "status": "proved",
   "theorems": [
    "C82_refused",
    "C82_kept",
    "C82_emptied",
    "C82_refuted"
   ],
   "note": "Full statement refuted (C82_refuted, and C82_emptied for every retry after a death during the insertions). Proved: the insertions of the retry throw, and an existing table is never changed."
  },
  {
   "property": "C83",
   "status": "proved",
   "theorems": [
    "C83_first",
    "C83_refuted"
   ],
   "note": "Holds of the first commit (C83_first); refuted for a second one after a failure."
  },
  {
   "property": "C84",
   "status": "proved",
   "theorems": [
    "C84_complete",
    "C84_interrupted",
    "C84_refuted",
    "C84_torn_refuted",
    "C84_garbage_refuted"
   ],
   "note": "Full statement refuted (C84_refuted: the stash is lost without notice; C84_torn_refuted; C84_garbage_refuted for encrypted pages not yet written). Proved: what holds at every point of death (C84_interrupted) and after the last one (C84_complete)."
  },
  {
   "property": "C85",
   "status": "proved",
   "theorems": [
    "C85_refused",
    "C85_again",
    "C85_refuted"
   ],
   "note": "Holds on top of an existing table (C85_refused); refuted for a builder that is built again after a refusal (C85_again for every database, C85_refuted)."
  },
  {
   "property": "C86",
   "status": "proved",
   "theorems": [
    "C86_stale",
    "C86_refuted"
   ],
   "note": "Refuted (C86_refuted); C86_stale says exactly what the store gives in presence of an older stash."
  },
  {
   "property": "C87",
   "status": "proved",
   "theorems": [
    "C87_serial",
    "C87_answers",
    "C87_completes",
    "C87_overlap_refuted",
    "C87_overtaken_refuted",
    "C87_late_refuted"
   ],
   "note": "Full statement refuted (overlapping searches, overtaken search, overtaken insertion). Proved when a search waits for the earlier requests of its keyword: same answers and databases as the sequential execution (C87_serial), the right documents (C87_answers), and no deadlock (C87_completes)."
  },
  {
   "property": "C88",
   "status": "proved",
   "theorems": [
    "C88_complete",
    "C88_interrupted",
    "C88_refuted"
   ],
   "note": "Full statement refuted (incomplete blocks lost without error). Proved: an undisturbed life leaves the files of C29, and at every point of death the server refuses to start or the hash table is complete."
  },
  {
   "property": "C89",
   "status": "proved",
   "theorems": [
    "C89_once",
    "C89_builds",
    "C89_unbuilt",
    "C89_refuted",
    "C89_unbuilt_refuted"
   ],
   "note": "Full statement refuted (repeated build with RocksDB; cuckoo builder destroyed unbuilt). Proved: one build gives the declared number of blocks at every point where a server starts; exact contents and size after any number of builds (RocksDB) and without build (cuckoo)."
  },
  {
   "property": "C90",
   "status": "proved",
   "theorems": [
    "C90_cuckoo",
    "C90_rocks",
    "C90_refuted",
    "C90_again"
   ],
   "note": "Full statement refuted (RocksDB blocks replaced; a cuckoo builder can never be built again: C90_again, for every disk). Proved: nothing changes with the cuckoo table, at any point of any life; with RocksDB the store and the other blocks are unchanged; no build succeeds."
  },
  {
   "property": "C91",
   "status": "proved",
   "theorems": [
    "C91_groups",
    "C91_sound",
    "C91_refuted"
   ],
   "note": "Full statement refuted (shared percentile keywords lose insertions). Proved for the keywords of the groups and for one thread, with the floating-point generator; soundness for all keywords at all times."
  },
  {
   "property": "C92",
   "status": "proved",
   "theorems": [
    "C92_buffers",
    "C92_groups",
    "C92_sound",
    "C92_few_documents",
    "C92_refuted"
   ],
   "note": "Full statement refuted (the last buffers are never inserted). Proved: what is inserted exactly, and that fewer than fifty documents of a group keyword are missing; nothing is inserted with two documents per thread or fewer."
  },
  {
   "property": "C93",
   "status": "proved",
   "theorems": [
    "C93_sophos",
    "C93_diana",
    "C93_refuted"
   ],
   "note": "Full statement refuted (the counters of the client are not synchronized). Proved: the exact results after any power failures, RocksDB keeping a prefix of the writes made since the last flush."
  },
  {
   "property": "C94",
   "status": "proved",
   "theorems": [
    "C94_sophos",
    "C94_diana",
    "C94_no_failure",
    "C94_refuted"
   ],
   "note": "Full statement refuted (no flush after an insertion). Proved: what a flush protects, and exactly what may be lost."
  },
  {
   "property": "C95",
   "status": "proved",
   "theorems": [
    "C95_sophos",
    "C95_diana",
    "C95_forward_sophos",
    "C95_forward_diana",
    "C95_reuse_sophos",
    "C95_reuse_diana",
    "C95_reached_sophos",
    "C95_reached_diana",
    "C95_refuted"
   ],
   "note": "Full statement refuted after a power failure of the client. Proved while the client keeps its counters; what is revealed otherwise is proved for all schemes."
  },
  {
   "property": "C96",
   "status": "proved",
   "theorems": [
    "C96_sophos",
    "C96_diana",
    "C96_complete"
   ],
   "note": "A stream is a queue whose unread messages are lost when it breaks; the calls are made one after the other."
  },
  {
   "property": "C97",
   "status": "proved",
   "theorems": [
    "C97_sophos",
    "C97_diana",
    "C97_refuted"
   ],
   "note": "Full statement refuted (errors of the stream are only logged). Proved: a prefix arrives, and everything when no error is logged."
  },
  {
   "property": "C98",
   "status": "proved",
   "theorems": [
    "C98_load",
    "C98_load_sophos",
    "C98_nested",
    "C98_left_open",
    "C98_undefined",
    "C98_refuted"
   ],
   "note": "Full statement refuted. Proved: what is loaded, what happens to the sessions, and when the behaviour is undefined."
  },
  {
   "property": "C99",
   "status": "proved",
   "theorems": [
    "C99_counters",
    "C99_leftover",
    "C99_interrupted",
    "C99_refuted",
    "C99_twice_refuted"
   ],
   "note": "Full statement refuted (ignored answers of the counter database; keyword inserted twice). Proved: what a search finds as a function of the counters on disk, whoever wrote them."
  },
  {
   "property": "C100",
   "status": "proved",
   "theorems": [
    "C100_existing",
    "C100_truncated",
    "C100_refuted"
   ],
   "note": "Full statement refuted. Proved: the files are unchanged, searches of keywords not inserted again are unchanged, the others are truncated to the blocks of the new list."
  },
  {
   "property": "C101",
   "status": "proved",
   "theorems": [
    "C101_defined",
    "C101_no_race",
    "C101_serial",
    "C101_load",
    "C101_progress"
   ],
   "note": "Accesses of the threads to the members, the mutex and the ClientWriter are interleaved; connections do not break (C96 to C98 have that)."
  },
  {
   "property": "C102",
   "status": "proved",
   "theorems": [
    "C102_writes",
    "C102_reported",
    "C102_null_refuted",
    "C102_writer_refuted",
    "C102_destroyed_refuted",
    "C102_race_refuted",
    "C102_lost_refuted"
   ],
   "note": "Full statement refuted in five ways. Proved: mutual exclusion of the writes; documents of the calls that return without exception or logged error were sent."
  },
  {
   "property": "C103",
   "status": "proved",
   "theorems": [
    "C103_accepts",
    "C103_runs"
   ],
   "note": "getopt is modelled after the GNU library; std::stod is a parameter; the actions are those of the runners and may throw."
  },
  {
   "property": "C104",
   "status": "proved",
   "theorems": [
    "C104_missing",
    "C104_unknown",
    "C104_number",
    "C104_status",
    "C104_refuted"
   ],
   "note": "Full statement refuted. Proved: the messages after any right options, the statuses of the Diana client, the fate of wrong numbers."
  },
  {
   "property": "C105",
   "status": "proved",
   "theorems": [
    "C105_accepts",
    "C105_ports",
    "C105_ports_refuted",
    "C105_message_refuted"
   ],
   "note": "Proved of the command lines and of the Sophos ports; refuted for the ports of Diana and for the message of a missing argument."
  },
  {
   "property": "C106",
   "status": "proved",
   "theorems": [
    "C106_output",
    "C106_faithful"
   ],
   "note": ""
  },
  {
   "property": "C107",
   "status": "proved",
   "theorems": [
    "C107_signal",
    "C107_serves",
    "C107_refuted",
    "C107_port_refuted"
   ],
   "note": "Full statement refuted. Proved: the effect of a signal at every step of main. A message to the log is: taking a mutex, writing, releasing it."
  },
  {
   "property": "C108",
   "status": "proved",
   "theorems": [
    "C108_counters",
    "C108_refines",
    "C108_foreign",
    "C108_foreign_refuted"
   ],
   "note": "Proved of the databases written by the class; exact for any database (values of less than three bytes are read from outside: refuted)."
  },
  {
   "property": "C109",
   "status": "proved",
   "theorems": [
    "C109_store",
    "C109_typed",
    "C109_store_refuted",
    "C109_lists",
    "C109_lists_truncated",
    "C109_lists_refuted"
   ],
   "note": "Full statement refuted for keys of 256 bytes or more and for objects of several sizes. Proved for shorter keys; the truncation is exact for every key."
  },
  {
   "property": "C110",
   "status": "proved",
   "theorems": [
    "C110_get",
    "C110_other_length"
   ],
   "note": ""
  },
  {
   "property": "C111",
   "status": "proved",
   "theorems": [
    "C111_calls",
    "C111_console",
    "C111_refuted"
   ],
   "note": "Full statement refuted. Proved: the logger, the file and the exceptions after any calls."
  },
  {
   "property": "C112",
   "status": "proved",
   "theorems": [
    "C112_after",
    "C112_first",
    "C112_refuted"
   ],
   "note": "Full statement refuted for concurrent first calls. Proved after a first call, and for one thread."
  },
  {
   "property": "C113",
   "status": "proved",
   "theorems": [
    "C113_report",
    "C113_stop_refuted",
    "C113_line",
    "C113_line_determines",
    "C113_message_refuted"
   ],
   "note": "Full statement refuted (stopped_ never set; messages with braces). Proved: the exact report and the lines."
  },
  {
   "property": "C114",
   "status": "proved",
   "theorems": [
    "C114_hex",
    "C114_array",
    "C114_refuted",
    "C114_map",
    "C114_map_determines",
    "C114_map_refuted"
   ],
   "note": "Full statement refuted (flags left on the stream; wide elements; line breaks). Proved: the texts and that they can be read back."
  },
  {
   "property": "C115",
   "status": "proved",
   "theorems": [
    "C115_result",
    "C115_tethys",
    "C115_pluto",
    "C115_refuted"
   ],
   "note": "Full statement refuted for Tethys (failed load tried again; keyword twice; full list before another one). Proved: result and builder exactly; searches after one load, whatever its end."
  },
  {
   "property": "C116",
   "status": "proved",
   "theorems": [
    "C116_sync",
    "C116_bytes",
    "C116_async",
    "C116_refuted"
   ],
   "note": "Full statement refuted with a scheduler (no fsync). Proved without one; bytes of different values are never mixed."
  },
  {
   "property": "C117",
   "status": "proved",
   "theorems": [
    "C117_local",
    "C117_part",
    "C117_refuted"
   ],
   "note": "Full statement refuted (nothing is synchronized). Proved: keys of which the pages were left; parts of the lists when plain pages are lost whole."
  },
  {
   "property": "C118",
   "status": "proved",
   "theorems": [
    "C118_local",
    "C118_part",
    "C118_refuted"
   ],
   "note": "Full statement refuted (values removed, table not synchronized). Proved: keys of which the slots were left; only inserted values when slots are lost whole."
  },
  {
   "property": "C119",
   "status": "proved",
   "theorems": [
    "C119_calls",
    "C119_throw",
    "C119_refuted"
   ],
   "note": "Full statement refuted (value lost by a call that throws; emplace from its own value). Proved: states and answers after any calls and exceptions."
  },
  {
   "property": "C120",
   "status": "proved",
   "theorems": [
    "C120_order",
    "C120_total",
    "C120_hash",
    "C120_refuted"
   ],
   "note": "Full statement refuted for types with incomparable values. Proved when the operators of the type are those of a total preorder."
  },
  {
   "property": "C121",
   "status": "proved",
   "theorems": [
    "C121_exact",
    "C121_kept",
    "C121_refuted",
    "C121_removed_refuted"
   ],
   "note": "Full statement refuted (the cache is not flushed). Proved: the answers exactly; keywords of which the cache kept the searches. Sequential search only; failures follow a flush."
  },
  {
   "property": "C122",
   "status": "proved",
   "theorems": [
    "C122_killed",
    "C122_fresh",
    "C122_refuted",
    "C122_power_refuted",
    "C122_lost_refuted",
    "C122_removed_refuted"
   ],
   "note": "Full statement refuted. Proved: the exact answers of a client that dies between two writes of search_request, and that its tokens stay new to the server."
  },
  {
   "property": "C123",
   "status": "proved",
   "theorems": [
    "C123_sophos",
    "C123_diana",
    "C123_janus",
    "C123_tethys",
    "C123_pluto",
    "C123_ask_refuted"
   ],
   "note": "Adaptive versions of C76 to C79, with questions to the random function; refuted without the condition on the questions."
  },
  {
   "property": "C124",
   "status": "proved",
   "theorems": [
    "C124_completed",
    "C124_said",
    "C124_summary",
    "C124_progress",
    "C124_progress_refuted",
    "C124_completed_refuted",
    "C124_rand_refuted"
   ],
   "note": "Full statement refuted. Proved: which messages are written and when, exactly one document early for complete keywords; what the last line says; that the progress line never contains a number."
  },
  {
   "property": "C125",
   "status": "proved",
   "theorems": [
    "C125_cut",
    "C125_sound",
    "C125_refuted"
   ],
   "note": "Full statement refuted. Proved: exactly what is read from every prefix of a stash file, and that what is read is never wrong, only missing."
  },
  {
   "property": "C126",
   "status": "proved",
   "theorems": [
    "C126_defined",
    "C126_history",
    "C126_objects",
    "C126_dangling_refuted",
    "C126_equal_refuted"
   ],
   "note": "The last two refute the parts of the statement marked as refuted; the rest is proved."
  },
  {
   "property": "C127",
   "status": "proved",
   "theorems": [
    "C127_submitted",
    "C127_offset",
    "C127_always",
    "C127_tables",
    "C127_no_access_error",
    "C127_default_refuted",
    "C127_page_refuted",
    "C127_warns",
    "C127_warning_refuted",
    "C127_mask_refuted",
    "C127_positions",
    "C127_static_refuted"
   ],
   "note": "Full statement refuted. Proved: exactly when requests are submitted and with which arguments, for page sizes that are powers of two; where the writes are."
  },
  {
   "property": "C128",
   "status": "proved",
   "theorems": [
    "C128_read",
    "C128_unique",
    "C128_file",
    "C128_twice_refuted"
   ],
   "note": "The converse of C125: all byte strings. The last theorem refutes that every entry is kept."
  }
 ]
}