{
 "claims": [
  {
   "property": "C01",
   "status": "proved",
   "theorems": [
    "C01_b32_roundtrip",
    "C01_b32_roundtrip_plain",
    "C01_b32_rfc4648",
    "C01_b32_case_insensitive"
   ],
   "note": "Round trip for all byte strings and sufficient sizes (with ignorable characters interleaved), equality with RFC 4648 text, case insensitivity."
  },
  {
   "property": "C02",
   "status": "partial",
   "theorems": [
    "C02_b32_encode_in_bounds",
    "C02_b32_decode_in_bounds_refuted",
    "C02_b32_decode_safe_sizes",
    "C02_b32_decode_count",
    "C02_b32_decode_in_bounds_mult8"
   ],
   "note": "Encoder in bounds proved. The decoder's size check rounds down, so the full statement is false: _refuted gives the witness, _safe_sizes characterises exactly the safe destination sizes, _count and _mult8 are the guards that hold."
  },
  {
   "property": "C03",
   "status": "proved",
   "theorems": [
    "C03_b64_rfc4648",
    "C03_b64_iovec",
    "C03_b64_roundtrip",
    "C03_b64_roundtrip_relaxed"
   ],
   "note": "Round trip (exact-size destination; relaxed text with white space and URL-safe letters), RFC 4648 equality, iovec = concatenation. Wide/SIMD loops of the bundled codec are outside the model."
  },
  {
   "property": "C04",
   "status": "proved",
   "theorems": [
    "C04_b64_decode_in_bounds",
    "C04_b64_decode_max_len",
    "C04_b64_encode_in_bounds"
   ],
   "note": "Both decoding passes stay in bounds for every text and size; return value bounded by the reported maximum; encoder in bounds."
  },
  {
   "property": "C05",
   "status": "proved",
   "theorems": [
    "C05_url_encode_rfc3986",
    "C05_url_decode_exact",
    "C05_url_roundtrip"
   ],
   "note": "Encoder equals the canonical RFC 3986 encoding (also in place), decoder accepts exactly the percent-encodings, round trip."
  },
  {
   "property": "C06",
   "status": "partial",
   "theorems": [
    "C06_url_decode_in_bounds",
    "C06_url_encode_in_bounds_refuted",
    "C06_url_encode_inplace_refuted",
    "C06_url_encode_in_bounds"
   ],
   "note": "Decoder in bounds proved; encoder in bounds for mtev_url_encode_len proved. Full claim false: a destination of 3*n is accepted and the terminator is stored past it; an in-place call with dest_len < src_len copies below the destination (both _refuted)."
  },
  {
   "property": "C07",
   "status": "partial",
   "theorems": [
    "C07_html_faithful",
    "C07_html_in_bounds",
    "C07_html_len_enough_refuted",
    "C07_html_len_enough"
   ],
   "note": "Faithful, inert and in bounds proved. Sufficiency of mtev_html_encode_len is false (_refuted); one more byte suffices (proved)."
  },
  {
   "property": "C08",
   "status": "proved",
   "theorems": [
    "C08_uuid_roundtrip",
    "C08_uuid_parse_exact",
    "C08_uuid_parse_in_bounds",
    "C08_uuid_canonical",
    "C08_uuid_unparse_shape"
   ],
   "note": "parse/unparse for all 16-byte values and all strings; isxdigit is taken in the C locale"
  },
  {
   "property": "C09",
   "status": "proved",
   "theorems": [
    "C09_sort_sorted_permutation"
   ],
   "note": "pointer-level model of the whole function; lists of up to 2^30 nodes (beyond that list_size overflows int)"
  },
  {
   "property": "C10",
   "status": "partial",
   "theorems": [
    "C10_sort_stable_refuted",
    "C10_sort_ties_reversed_partial",
    "C10_sort_stable_without_ties_partial"
   ],
   "note": "documented stability is false: refuted with a witness; proved instead that ties come out exactly reversed, so the sort is stable iff there are no ties"
  },
  {
   "property": "C11",
   "status": "proved",
   "theorems": [
    "C11_search_first_occurrence",
    "C11_search_null_iff_absent",
    "C11_search_total"
   ],
   "note": "KMP search for all needles shorter than 256 bytes, the byte after the needle being readable (see C44)"
  },
  {
   "property": "C12",
   "status": "proved",
   "theorems": [
    "C12_prepend_is_concatenation",
    "C12_append_is_concatenation"
   ],
   "note": "both buffers, every initial size and every sequence of calls whose total is below about 2^31/3 bytes (beyond it the int holding the new size overflows)"
  },
  {
   "property": "C13",
   "status": "partial",
   "theorems": [
    "C13_lru_textbook_partial",
    "C13_lru_behaviour",
    "C13_lru_overwrite_crash_refuted",
    "C13_lru_capacity_refuted",
    "C13_lru_coherent",
    "C13_lru_bounded"
   ],
   "note": "Matches the textbook LRU on all histories without an overwriting put; exact behaviour on all histories proved (each overwrite loses one slot until invalidate; crash when no slot remains); hits always return the last value; at most cap keys."
  },
  {
   "property": "C14",
   "status": "proved",
   "theorems": [
    "C14_lfu_textbook",
    "C14_lfu_coherent",
    "C14_lfu_keys",
    "C14_lfu_bounded",
    "C14_lfu_victim"
   ],
   "note": "Whole histories refine a textbook LFU cache with FIFO ties; coherence, size and victim minimality follow. use counts are unbounded naturals (size_t in C); the mutex makes calls sequential."
  },
  {
   "property": "C15",
   "status": "proved",
   "theorems": [
    "C15_longest_match",
    "C15_never_aborts",
    "C15_del_returns"
   ],
   "note": "Refinement of the trie to a map from bit strings: for every history that runs, lookup = longest configured prefix (both families, arbitrary uninitialised words); assertions never fire. NULL dereference and pstack overrun are claim C51."
  },
  {
   "property": "C16",
   "status": "proved",
   "theorems": [
    "C16_limits_and_alternation"
   ],
   "note": "every schedule: no assertion fails, admitted amount <= high, at most one unacknowledged notification, strict alternation"
  },
  {
   "property": "C17",
   "status": "proved",
   "theorems": [
    "C17_no_lost_wakeup",
    "C17_rest_states",
    "C17_draining_enables"
   ],
   "note": "quiescent and stopped implies held > low; the lower call that drains to low returns ENABLE"
  },
  {
   "property": "C18",
   "status": "proved",
   "theorems": [
    "C18_invoke",
    "C18_exists"
   ],
   "note": "every list of sequential registrations and every vector of results"
  },
  {
   "property": "C19",
   "status": "partial",
   "theorems": [
    "C19_none_lost_refuted",
    "C19_undisturbed",
    "C19_any_schedule"
   ],
   "note": "False as written (C19_none_lost_refuted): the CAS re-reads the head as its expected value. Proved: nothing lost when no registration completes between another's two reads (C19_undisturbed); on every schedule the chain is finite, duplicate free and headed by the latest registration (C19_any_schedule). A compiler that merges the two plain reads hides the defect."
  },
  {
   "property": "C20",
   "status": "proved",
   "theorems": [
    "C20_timegm",
    "C20_parse_time",
    "C20_parse_real",
    "C20_parse_sound"
   ],
   "note": "mtev_timegm equals a year-by-year, month-by-month count for all years from 1970; every RFC 3339 text is refused or gives that time minus the offset (strptime is a parameter assumed only to read such texts)."
  },
  {
   "property": "C21",
   "status": "partial",
   "theorems": [
    "C21_leap_year_refuted",
    "C21_accepts_partial",
    "C21_ordinary_years"
   ],
   "note": "False: validation applies the leap rule to tm_year, so 2000-02-29 is refused and 2300-02-29 accepted (_refuted). C21_accepts_partial characterises exactly the accepted dates; correct in all years not divisible by 100."
  },
  {
   "property": "C22",
   "status": "partial",
   "theorems": [
    "C22_accepts",
    "C22_sum_partial",
    "C22_tables_positive",
    "C22_wraps",
    "C22_overflow_refuted",
    "C22_units",
    "C22_scales",
    "C22_variants_agree",
    "C22_terminates"
   ],
   "note": "Grammar accepted is exact; sum correct whenever it is below 2^64; scale factors agree. Larger sums wrap silently (_refuted, C22_wraps)."
  },
  {
   "property": "C23",
   "status": "proved",
   "theorems": [
    "C23_distinct_owners",
    "C23_first_is_responsible"
   ],
   "note": "any collision pattern for distinctness; first owner = responsible node when no two points collide"
  },
  {
   "property": "C24",
   "status": "proved",
   "theorems": [
    "C24_moves_only_what_it_must"
   ],
   "note": "no collisions on the ring; adding or removing a node moves keys only to or from it"
  },
  {
   "property": "C25",
   "status": "proved",
   "theorems": [
    "C25_contents",
    "C25_detach",
    "C25_maybe_vprintf",
    "C25_curl"
   ],
   "note": "every operation sequence within the stated size limits"
  },
  {
   "property": "C26",
   "status": "proved",
   "theorems": [
    "C26_words",
    "C26_any_words",
    "C26_total"
   ],
   "note": "all lines, all words, all capacities"
  },
  {
   "property": "C27",
   "status": "partial",
   "theorems": [
    "C27_handles_refuted",
    "C27_returned_refuted",
    "C27_strings_partial",
    "C27_blobs_partial",
    "C27_stored_bytes",
    "C27_terminated_call"
   ],
   "note": "Refuted as stated: mtev_intern_str compares the byte after the string (C27_handles_refuted) and strings and data share entries (C27_returned_refuted). Proved for programs that intern only terminated strings, or only data; for any program handles are equal exactly when the stored bytes are."
  },
  {
   "property": "C28",
   "status": "proved",
   "theorems": [
    "C28_pool_memory_partitioned",
    "C28_compaction_keeps_free_space",
    "C28_compaction_sort",
    "C28_pool_stats_exact"
   ],
   "note": "Whole calls in sequence; mmap grants disjoint, aligned extents."
  },
  {
   "property": "C29",
   "status": "proved",
   "theorems": [
    "C29_set",
    "C29_state",
    "C29_members",
    "C29_members_remove",
    "C29_ambiguous_key"
   ],
   "note": "Lists without further indexes, comparators that order the data (at most one element equal to a key)."
  },
  {
   "property": "C30",
   "status": "proved",
   "theorems": [
    "C30_predicate",
    "C30_formula",
    "C30_order",
    "C30_missing",
    "C30_has_predicate"
   ],
   "note": "evaluation, argument order, missing variables, has_predicate; doubles, strtod and PCRE are parameters"
  },
  {
   "property": "C31",
   "status": "proved",
   "theorems": [
    "C31_memory_safe",
    "C31_each_job_once",
    "C31_line",
    "C31_fifo",
    "C31_yields"
   ],
   "note": "any interleaving of atomic sections; fewer than 2^32-1 worker threads"
  },
  {
   "property": "C32",
   "status": "proved",
   "theorems": [
    "C32_limit",
    "C32_refused_exactly_when_full"
   ],
   "note": "any interleaving"
  },
  {
   "property": "C33",
   "status": "proved",
   "theorems": [
    "C33_map",
    "C33_store"
   ],
   "note": "Every history of store, set, replace, retrieve, get, delete, delete_all, size and iteration over arbitrary byte keys, for every hash function and iteration order of ck_hs, returns and frees what a finite map does, with no leaked or dangling element."
  },
  {
   "property": "C34",
   "status": "proved",
   "theorems": [
    "C34_get",
    "C34_lasts",
    "C34_set",
    "C34_refused",
    "C34_wait_free",
    "C34_can_move",
    "C34_stats"
   ],
   "note": "Sequentially consistent steps; hash function, probability function and allocator are arbitrary."
  },
  {
   "property": "C35",
   "status": "proved",
   "theorems": [
    "C35_registers",
    "C35_same_set",
    "C35_same_values",
    "C35_never_decreases",
    "C35_precisions"
   ],
   "note": "XXH64 is an arbitrary function."
  },
  {
   "property": "C36",
   "status": "proved",
   "theorems": [
    "C36_roundtrip",
    "C36_compose",
    "C36_ignored",
    "C36_any_bytes",
    "C36_only_sender"
   ],
   "note": "Messages of members with at most 255 payloads; arbitrary bytes at face value."
  },
  {
   "property": "C37",
   "status": "partial",
   "theorems": [
    "C37_refuted",
    "C37_exact",
    "C37_equal_lengths_partial",
    "C37_none",
    "C37_absent_overrun"
   ],
   "note": "Refuted: the lookup adds the length of the following header, so a payload of another length than the first is returned from the wrong place, beyond the message if longer; unregistered ones read past the table. Exact place proved; right iff as long as the first."
  },
  {
   "property": "C38",
   "status": "partial",
   "theorems": [
    "C38_refuted",
    "C38_calm_partial",
    "C38_recomputed",
    "C38_revival",
    "C38_am_i_oldest"
   ],
   "note": "Refuted by a node that comes back to a cluster of dead nodes and by a peer with our own boot time. Proved for every history without these two, after every check in which a node died, and the exact effect of the first."
  },
  {
   "property": "C39",
   "status": "proved",
   "theorems": [
    "C39_decode",
    "C39_complete"
   ],
   "note": "C39_decode and C39_complete for every body, split and buffer sequence."
  },
  {
   "property": "C40",
   "status": "proved",
   "theorems": [
    "C40_order",
    "C40_complete",
    "C40_readable",
    "C40_accepts"
   ],
   "note": "C40_order, C40_complete, C40_readable, C40_accepts for every operation sequence and write schedule."
  },
  {
   "property": "C41",
   "status": "proved",
   "theorems": [
    "C41_conservation",
    "C41_admits",
    "C41_no_lost_wakeup",
    "C41_blocks_only_at_zero",
    "C41_no_deadlock",
    "C41_wraps"
   ],
   "note": "Any number of calls interleaved step by step; mutex and condition variable by their contract, spurious wake-ups included; initial value plus posts below 2^32 (C41_wraps shows what happens otherwise)."
  },
  {
   "property": "C42",
   "status": "partial",
   "theorems": [
    "C42_round_trip_partial",
    "C42_scalars_refuted",
    "C42_deep_refuted"
   ],
   "note": "Proved for arrays and objects nested at most 31 levels deep (C42_round_trip_partial, C85). False beyond: every serialised scalar is refused (C42_scalars_refuted), as is nesting of 32 (C42_deep_refuted)."
  },
  {
   "property": "C43",
   "status": "partial",
   "theorems": [
    "C43_b64_decode_determinate_refuted",
    "C43_b64_decode_determinate"
   ],
   "note": "False of the code: 'A=' emits a byte computed from an uninitialised temporary (_refuted). C43_b64_decode_determinate characterises exactly the texts with determinate output."
  },
  {
   "property": "C44",
   "status": "partial",
   "theorems": [
    "C44_search_in_bounds_refuted",
    "C44_search_faults_partial",
    "C44_search_ignores_next_byte_partial",
    "C44_search_long_needle_aborts_partial"
   ],
   "note": "false: every non-empty needle makes kmp_precompute read the byte after it and a 256-byte needle overruns the table; refuted, exact conditions proved"
  },
  {
   "property": "C45",
   "status": "partial",
   "theorems": [
    "C45_to_string_terminated_refuted",
    "C45_to_string_terminated_iff_partial",
    "C45_to_string_unterminated_partial"
   ],
   "note": "false: refuted with eight bytes in a fresh buffer; proved exactly when the terminator is present"
  },
  {
   "property": "C46",
   "status": "partial",
   "theorems": [
    "C46_strlcpy",
    "C46_strlcpy_size0_refuted",
    "C46_strlcat",
    "C46_strlcat_full",
    "C46_strndup"
   ],
   "note": "strlcpy with size > 0, strlcat and strndup proved; strlcpy with size 0 stores a byte (refuted). Models the fallback bodies compiled when libc has no strlcpy/strlcat"
  },
  {
   "property": "C47",
   "status": "proved",
   "theorems": [
    "C47_lru_ownership"
   ],
   "note": ""
  },
  {
   "property": "C48",
   "status": "partial",
   "theorems": [
    "C48_lru_unlimited_partial",
    "C48_lru_unlimited_overwrite_refuted",
    "C48_lru_unlimited_invalidate_refuted"
   ],
   "note": "Proved for histories without overwriting put and without invalidate; overwrite unlinks an unlinked entry and invalidate leaks (refuted)."
  },
  {
   "property": "C49",
   "status": "proved",
   "theorems": [
    "C49_lfu_ownership"
   ],
   "note": "Exact accounting of every value over all histories with max_entries > 0."
  },
  {
   "property": "C50",
   "status": "partial",
   "theorems": [
    "C50_lfu_buckets_partial",
    "C50_lfu_bucket_leak_refuted",
    "C50_lfu_unlimited_partial",
    "C50_lfu_unlimited_overwrite_refuted",
    "C50_lfu_unlimited_invalidate_refuted",
    "C50_lfu_zero_refuted"
   ],
   "note": "Proved: no double free of a bucket, no freed, empty or duplicate bucket in the list; unbounded mode is a map without overwrites/invalidate. False in general: touch leaks an emptied bucket (mtev_lfu.c:257-289), overwriting with max_entries<0 goes through an unset frequency_list_head, invalidate leaks there, max_entries=0 get leaves *value untouched."
  },
  {
   "property": "C51",
   "status": "partial",
   "theorems": [
    "C51_run_total_partial",
    "C51_find_total",
    "C51_delete_last_refuted",
    "C51_overrun_refuted"
   ],
   "note": "False: deleting the only route (or any prefix at the root without two children) dereferences NULL; 129 nested prefixes overrun pstack[128]. Proved: total when every deletion leaves some added prefix uncovered and no /128 is added; IPv4 lookups always in bounds."
  },
  {
   "property": "C52",
   "status": "partial",
   "theorems": [
    "C52_released_once",
    "C52_overwrite_refuted"
   ],
   "note": "Proved for deletion and drop_tree (exactly once each, only live routes). Overwriting a route forgets the old data without a call of f (_refuted), so the full statement is false."
  },
  {
   "property": "C53",
   "status": "partial",
   "theorems": [
    "C53_families_partial",
    "C53_families_refuted"
   ],
   "note": "False: 10.0.0.0/8 answers lookups of 0a00::/8 addresses (_refuted). Proved: IPv4 calls whose bits do not cover the IPv6 address cannot change its answer."
  },
  {
   "property": "C54",
   "status": "proved",
   "theorems": [
    "C54_boolean"
   ],
   "note": "Both directions for every string."
  },
  {
   "property": "C55",
   "status": "partial",
   "theorems": [
    "C55_stable_wakes_refuted",
    "C55_one_producer_wakes"
   ],
   "note": "False with two producers (C55_stable_wakes_refuted: the refused one is never signalled). Proved for schedules with at most one stable_try_raise_one in progress at a time (C55_one_producer_wakes)."
  },
  {
   "property": "C56",
   "status": "partial",
   "theorems": [
    "C56_owned_is_share_refuted",
    "C56_owned_is_share"
   ],
   "note": "refuted when points collide (owned underflows or the ring is left unsorted); exact without collisions"
  },
  {
   "property": "C57",
   "status": "partial",
   "theorems": [
    "C57_set_takes_all_refuted",
    "C57_set_takes_all"
   ],
   "note": "31 bits is undefined behaviour (1<<31); termination and completeness proved for every other size"
  },
  {
   "property": "C58",
   "status": "proved",
   "theorems": [
    "C58_footprint"
   ],
   "note": "footprint and leak freedom for every history"
  },
  {
   "property": "C59",
   "status": "partial",
   "theorems": [
    "C59_printf_total_refuted",
    "C59_error_rewinds",
    "C59_error_underruns",
    "C59_large_room_aborts"
   ],
   "note": "refuted: an encoding error moves the write position back one byte (before the buffer when empty), and 2 GiB of room makes add_printf abort; exact outcomes proved"
  },
  {
   "property": "C60",
   "status": "partial",
   "theorems": [
    "C60_classification",
    "C60_unbalanced_is_error_refuted",
    "C60_unbalanced"
   ],
   "note": "refuted: a single quote followed by text, or a double quote ending in a backslash, is silently dropped with the rest of the line; exact classification of every line proved"
  },
  {
   "property": "C61",
   "status": "partial",
   "theorems": [
    "C61_switching_loses_nothing_refuted",
    "C61_lost"
   ],
   "note": "refuted: switching LIFO off while jobs wait drops them at the next enqueue; the exact loss, and safety when drained (C31), are proved"
  },
  {
   "property": "C62",
   "status": "proved",
   "theorems": [
    "C62_fair_share"
   ],
   "note": "any interleaving"
  },
  {
   "property": "C63",
   "status": "partial",
   "theorems": [
    "C63_pool_compaction_4g_refuted",
    "C63_pool_never_aborts_partial",
    "C63_pool_alloc_succeeds_partial",
    "C63_pool_search_never_ends_partial",
    "C63_pool_large_items_partial"
   ],
   "note": "Refuted: a merged free fragment of 4 GiB indexes before the level table; proved: no abort below 4 GiB, allocation succeeds with power-of-two extents, and exactly which items make the search loop forever or get no memory."
  },
  {
   "property": "C64",
   "status": "proved",
   "theorems": [
    "C64_never_aborts",
    "C64_contents_stay",
    "C64_reclaimed_unheld",
    "C64_refcount",
    "C64_no_leak",
    "C64_no_deadlock"
   ],
   "note": "Any number of calls interleaved step by step (sequentially consistent); locks by their contract; fewer than 2^32-2 references at a time."
  },
  {
   "property": "C65",
   "status": "partial",
   "theorems": [
    "C65_finite_refuted",
    "C65_finite_partial",
    "C65_estimate_input"
   ],
   "note": "Refuted for precisions 4 to 8 (C65_finite_refuted); exact condition and proof for precisions 9 and up in C65_finite_partial. Floating point part not modelled."
  },
  {
   "property": "C66",
   "status": "partial",
   "theorems": [
    "C66_readers_refuted",
    "C66_readers_partial",
    "C66_released_once"
   ],
   "note": "Refuted for the default freef, free() (C66_readers_refuted); release exactly once holds always (C66_released_once), no read after release holds when freef defers or calls do not overlap (C66_readers_partial)."
  },
  {
   "property": "C67",
   "status": "proved",
   "theorems": [
    "C67_layout",
    "C67_alignment"
   ],
   "note": ""
  },
  {
   "property": "C68",
   "status": "proved",
   "theorems": [
    "C68_merge",
    "C68_binary"
   ],
   "note": "Merge theorem for dictionaries as the header requires, and the exact over-read condition for binary keys."
  },
  {
   "property": "C69",
   "status": "partial",
   "theorems": [
    "C69_string_literals",
    "C69_order",
    "C69_numeric_literals",
    "C69_not_a_number",
    "C69_refuted",
    "C69_long_string",
    "C69_decimal"
   ],
   "note": "true against string literals, and against numbers exactly when the variable is a comparable number; false otherwise: a non-numeric string neither equals nor differs from a number, a number against a numeric pattern aborts, a string of 128 bytes or more against a number reads uninitialised memory"
  },
  {
   "property": "C70",
   "status": "proved",
   "theorems": [
    "C70_parse",
    "C70_any_string",
    "C70_escapes"
   ],
   "note": "for the generated grammar, including whole nesting and spacing; every NUL-free string has a literal"
  },
  {
   "property": "C71",
   "status": "partial",
   "theorems": [
    "C71_accepted",
    "C71_refuted",
    "C71_comma_space_refuted"
   ],
   "note": "refuted: unterminated text is accepted with a NULL root, x=1e5 is taken for x=1, a bad pattern gives a NULL node, a space before the second comma is refused; what is accepted is characterised as a run of expressions and an ignored rest"
  },
  {
   "property": "C72",
   "status": "partial",
   "theorems": [
    "C72_string_last",
    "C72_number_last",
    "C72_refuted"
   ],
   "note": "true for strings set last, and for numbers set last against numeric literals; refuted for a number set after a string the variable did not allocate, which string literals are still compared with"
  },
  {
   "property": "C73",
   "status": "partial",
   "theorems": [
    "C73_refuted",
    "C73_frame",
    "C73_table",
    "C73_set",
    "C73_unset"
   ],
   "note": "Map behaviour, refusal and the invariant proved. Frame limit refuted: the macros are unparenthesised, 1512 bytes are admitted and headers not counted; exact frame size proved."
  },
  {
   "property": "C74",
   "status": "proved",
   "theorems": [
    "C74_owners",
    "C74_more",
    "C74_all",
    "C74_primary",
    "C74_agree",
    "C74_members"
   ],
   "note": "Hash and qsort are parameters; distinct node ids, at most 65536 nodes."
  },
  {
   "property": "C75",
   "status": "partial",
   "theorems": [
    "C75_refuted",
    "C75_answers_partial",
    "C75_bad_nodes",
    "C75_monotone",
    "C75_stored",
    "C75_as_written"
   ],
   "note": "Ordering and stored values proved. The return value is wrong for bad node elements (0 or 1 with nothing done; exact), numbers out of int range wrap (exact)."
  },
  {
   "property": "C76",
   "status": "partial",
   "theorems": [
    "C76_refuted",
    "C76_hook_partial",
    "C76_clash"
   ],
   "note": "Refuted for a peer with our own boot time (exact effect proved); proved in all other cases."
  },
  {
   "property": "C77",
   "status": "proved",
   "theorems": [
    "C77_timeouts"
   ],
   "note": "Valid times, nonnegative timeout and maturity."
  },
  {
   "property": "C78",
   "status": "partial",
   "theorems": [
    "C78_delivered_partial",
    "C78_limit_refuted"
   ],
   "note": "C78_delivered_partial needs a non-zero write limit; C78_limit_refuted: with a limit of 0 (mtev_http_session_set_max_write accepts it) nothing is ever written and the loop does not end."
  },
  {
   "property": "C79",
   "status": "proved",
   "theorems": [
    "C79_decode",
    "C79_complete"
   ],
   "note": "C79_decode and C79_complete."
  },
  {
   "property": "C80",
   "status": "partial",
   "theorems": [
    "C80_lost",
    "C80_pipelined_refuted"
   ],
   "note": "False for the code: C80_pipelined_refuted; C80_lost says exactly which bytes are lost (the ones already buffered, src/mtev_http1.c:989-994)."
  },
  {
   "property": "C81",
   "status": "partial",
   "theorems": [
    "C81_accepted",
    "C81_strict_refuted"
   ],
   "note": "False for the code: C81_strict_refuted (empty size line, arbitrary bytes after the last size, sizes modulo 2^32); C81_accepted characterises what is accepted."
  },
  {
   "property": "C82",
   "status": "proved",
   "theorems": [
    "C82_bounded"
   ],
   "note": "C82_bounded."
  },
  {
   "property": "C83",
   "status": "partial",
   "theorems": [
    "C83_plain_partial",
    "C83_withheld_refuted"
   ],
   "note": "C83_plain_partial: true for bodies with a content length; C83_withheld_refuted: false for chunked bodies."
  },
  {
   "property": "C84",
   "status": "partial",
   "theorems": [
    "C84_continue_partial",
    "C84_pending_crash",
    "C84_survives_refuted"
   ],
   "note": "C84_continue_partial: true if the interim response fits at once; C84_pending_crash and C84_survives_refuted: otherwise the next flush fails the assertion at src/mtev_http1.c:1956."
  },
  {
   "property": "C85",
   "status": "proved",
   "theorems": [
    "C85_round_trip"
   ],
   "note": "Both entry points; doubles under the hypothesis that sscanf reads back what printf printed, which fails for most doubles since six decimals are printed."
  },
  {
   "property": "C86",
   "status": "partial",
   "theorems": [
    "C86_pieces",
    "C86_continue",
    "C86_early",
    "C86_blank_refuted"
   ],
   "note": "Proved when the opening bracket is in the first piece (C86_pieces), for any texts once the parser asked for more (C86_continue), and for answers with input left over (C86_early). False when the first piece is white space (C86_blank_refuted)."
  },
  {
   "property": "C87",
   "status": "partial",
   "theorems": [
    "C87_document",
    "C87_rest",
    "C87_features_refuted"
   ],
   "note": "Proved for documents nested at most 31 levels without six features (C87_document, C87_rest); each of the six is necessary (C87_features_refuted)."
  },
  {
   "property": "C88",
   "status": "partial",
   "theorems": [
    "C88_parsed",
    "C88_built",
    "C88_other_refuted"
   ],
   "note": "Proved for parsed integers (C88_parsed) and for the getter of the type used to build (C88_built); the other getters return 0 (C88_other_refuted)."
  },
  {
   "property": "C89",
   "status": "proved",
   "theorems": [
    "C89_safe"
   ],
   "note": "The model makes an access beyond the stack or a loop without progress a distinct outcome, excluded for all call sequences."
  },
  {
   "property": "C90",
   "status": "partial",
   "theorems": [
    "C90_truncated",
    "C90_nul",
    "C90_comment_refuted"
   ],
   "note": "Proved for parse_ex with a length (C90_truncated); mtev_json_tokener_parse agrees unless the text ends in a comment (C90_nul), where it does accept a part (C90_comment_refuted)."
  },
  {
   "property": "C91",
   "status": "proved",
   "theorems": [
    "C91_map",
    "C91_safe"
   ],
   "note": "For every hash function; termination is the separate property C92."
  },
  {
   "property": "C92",
   "status": "partial",
   "theorems": [
    "C92_returns",
    "C92_lookup_refuted"
   ],
   "note": "Proved for histories in which object_del took away at most four members (overwriting does not count), so for everything the parser builds; five removals can make the next lookup loop for ever (C92_lookup_refuted)."
  },
  {
   "property": "C93",
   "status": "proved",
   "theorems": [
    "C93_array",
    "C93_negative_refuted"
   ],
   "note": "Negative indices are outside of the property; they access memory before the array (C93_negative_refuted)."
  },
  {
   "property": "C94",
   "status": "proved",
   "theorems": [
    "C94_object",
    "C94_array"
   ],
   "note": "Objects and arrays; the order of release is in C91 and C93."
  },
  {
   "property": "C95",
   "status": "proved",
   "theorems": [
    "C95_printbuf"
   ],
   "note": "Sizes are unbounded in the model; the int arithmetic overflows from 2^30 bytes on."
  },
  {
   "property": "C96",
   "status": "proved",
   "theorems": [
    "C96_route",
    "C96_total"
   ],
   "note": "Registration and choice of the route, websockets included; PCRE is a parameter restricted only to offsets within the subject."
  },
  {
   "property": "C97",
   "status": "partial",
   "theorems": [
    "C97_params_partial",
    "C97_many_groups_refuted"
   ],
   "note": "Parameters are exact for the routes taken; false in full: with more than nine groups pcre_exec returns 0 and the route never matches (C97_many_groups_refuted). Groups after the last one that took part are not passed."
  },
  {
   "property": "C98",
   "status": "proved",
   "theorems": [
    "C98_options",
    "C98_no_base"
   ],
   "note": "OPTIONS and 404 without a base; a method with several matching routes is repeated."
  },
  {
   "property": "C99",
   "status": "partial",
   "theorems": [
    "C99_decision_partial",
    "C99_acl_type_refuted"
   ],
   "note": "Proved with the type of the acl taken as deny; false in full: load_rules overwrites the type of the acl by default_allow, so type=allow of an acl has no effect (C99_acl_type_refuted)."
  },
  {
   "property": "C100",
   "status": "proved",
   "theorems": [
    "C100_granted"
   ],
   "note": "For all configurations that do not run into skipto (C102)."
  },
  {
   "property": "C101",
   "status": "partial",
   "theorems": [
    "C101_conditions_partial",
    "C101_fail_open_refuted"
   ],
   "note": "False: what cannot be compiled or understood is dropped and the rule applies to all (C101_fail_open_refuted); the exact reading of every condition is proved for all configurations (C101_conditions_partial)."
  },
  {
   "property": "C102",
   "status": "partial",
   "theorems": [
    "C102_skipto_partial",
    "C102_skipto_refuted"
   ],
   "note": "False: the table of names holds the acl instead of the rule, evaluation reads beyond the end of the acl (C102_skipto_refuted); exactly when this happens is C102_skipto_partial. A name in an earlier acl is never found."
  },
  {
   "property": "C103",
   "status": "partial",
   "theorems": [
    "C103_network_partial",
    "C103_family_refuted"
   ],
   "note": "Exact for all networks and clients; false in full because the family is not compared (C103_family_refuted)."
  },
  {
   "property": "C104",
   "status": "proved",
   "theorems": [
    "C104_authorised",
    "C104_runs",
    "C104_denied"
   ],
   "note": "Hooks and authorisation functions are arbitrary; migration between threads is left out."
  },
  {
   "property": "C105",
   "status": "partial",
   "theorems": [
    "C105_messages_partial",
    "C105_second_message_refuted",
    "C105_register_auth_refuted"
   ],
   "note": "False in two ways: the handler is remembered before the function is asked, so all messages after the first are delivered (C105_second_message_refuted, exact in C105_messages_partial); mtev_http_rest_websocket_register_auth attaches the function to a GET route that websockets never use (C105_register_auth_refuted, for all uses)."
  },
  {
   "property": "C106",
   "status": "partial",
   "theorems": [
    "C106_inside_partial",
    "C106_asked",
    "C106_sibling_refuted",
    "C106_sibling_accepted",
    "C106_below_accepted"
   ],
   "note": "False: a directory next to the root whose name has one more character is served (C106_sibling_refuted); nothing else outside is (C106_inside_partial)."
  },
  {
   "property": "C107",
   "status": "partial",
   "theorems": [
    "C107_extension_partial",
    "C107_name_refuted"
   ],
   "note": "Proved for names with a dot; without one the first character of the name is dropped (C107_name_refuted)."
  },
  {
   "property": "C108",
   "status": "proved",
   "theorems": [
    "C108_decoded",
    "C108_any_text"
   ],
   "note": ""
  },
  {
   "property": "C109",
   "status": "proved",
   "theorems": [
    "C109_parameters",
    "C109_without"
   ],
   "note": "Names and values without NUL."
  },
  {
   "property": "C110",
   "status": "proved",
   "theorems": [
    "C110_request"
   ],
   "note": "Heads within B - B/4 bytes of one block (24528 bytes with the block size of the code), no NUL, no Expect header (C114)."
  },
  {
   "property": "C111",
   "status": "partial",
   "theorems": [
    "C111_splits_partial",
    "C111_terminator_refuted",
    "C111_crossing_refuted"
   ],
   "note": "Proved for heads within one block. Refuted for larger ones: a block that ends within the last line end (C111_terminator_refuted: never served) or within a line (C111_crossing_refuted: closed or outside of the buffer)."
  },
  {
   "property": "C112",
   "status": "proved",
   "theorems": [
    "C112_accepted"
   ],
   "note": "Heads without NUL that fit one block."
  },
  {
   "property": "C113",
   "status": "partial",
   "theorems": [
    "C113_nul_refuted",
    "C113_kept_partial"
   ],
   "note": "Refuted: everything after a NUL is dropped (C113_nul_refuted), so a Content-Length after it is not seen. Holds without NUL (C113_kept_partial)."
  },
  {
   "property": "C114",
   "status": "partial",
   "theorems": [
    "C114_framing_partial",
    "C114_coding_refuted",
    "C114_length_refuted",
    "C114_expect_partial"
   ],
   "note": "Exact rules proved; refuted for codings in another case and for lengths that are no numbers (negative, trailing characters)."
  },
  {
   "property": "C115",
   "status": "partial",
   "theorems": [
    "C115_one_block_partial",
    "C115_two_blocks_refuted"
   ],
   "note": "Proved for heads within one block; refuted when a line crosses two blocks (C115_two_blocks_refuted)."
  },
  {
   "property": "C116",
   "status": "partial",
   "theorems": [
    "C116_recognized_partial",
    "C116_case_refuted"
   ],
   "note": "Exact rules proved: the first letter decides by case, the others do not; Get is GET (C116_case_refuted)."
  },
  {
   "property": "C117",
   "status": "proved",
   "theorems": [
    "C117_round_trip"
   ],
   "note": "Cookie module: refresh then request_complete, for every HMAC of 32 bytes, nonce and accompanying cookies."
  },
  {
   "property": "C118",
   "status": "proved",
   "theorems": [
    "C118_accepted",
    "C118_issued",
    "C118_distinct"
   ],
   "note": "Cookie module: inversion of request_complete; the variant about issued cookies takes unforgeability of HMAC as hypothesis."
  },
  {
   "property": "C119",
   "status": "partial",
   "theorems": [
    "C119_identity_partial",
    "C119_long_refuted"
   ],
   "note": "Exact: names are cut to length mod 256; refuted for 256 bytes or more (the cookie of v++w, |w|=256, is a cookie of v). For shorter names C117."
  },
  {
   "property": "C120",
   "status": "proved",
   "theorems": [
    "C120_reading",
    "C120_issuing"
   ],
   "note": "Cookie module: the outcome Bad does not occur."
  },
  {
   "property": "C121",
   "status": "partial",
   "theorems": [
    "C121_credentials_partial",
    "C121_lost",
    "C121_refuted"
   ],
   "note": "Holds for values without space and asterisk; any other value is received as the empty string (C121_lost), so the property as stated is refuted."
  },
  {
   "property": "C122",
   "status": "partial",
   "theorems": [
    "C122_success_partial",
    "C122_refused_partial",
    "C122_cookie_refuted"
   ],
   "note": "Holds for requests without a cookie; with one, every submitted form is answered by the redirect although the credentials were refused (C122_cookie_refuted)."
  },
  {
   "property": "C123",
   "status": "partial",
   "theorems": [
    "C123_location_partial",
    "C123_anywhere_refuted"
   ],
   "note": "Refuted: any text, other hosts and CRLF included, becomes the Location; proved only that it is the submitted whereto or /."
  },
  {
   "property": "C124",
   "status": "partial",
   "theorems": [
    "C124_back_partial",
    "C124_space_refuted",
    "C124_denied"
   ],
   "note": "Whole chain proved for pages without space and asterisk; a page with one leads to / (C124_space_refuted). The path is the decoded one."
  },
  {
   "property": "C125",
   "status": "proved",
   "theorems": [
    "C125_domain",
    "C125_cookie"
   ],
   "note": "Cookie module: domain_of, exact."
  },
  {
   "property": "C126",
   "status": "partial",
   "theorems": [
    "C126_config_partial",
    "C126_rejected",
    "C126_domain_refuted"
   ],
   "note": "key, max_age (below 2^32), user_NAME and rejection proved; domain is never set (the code tests max_age twice)."
  },
  {
   "property": "C127",
   "status": "partial",
   "theorems": [
    "C127_reads_partial",
    "C127_text_partial",
    "C127_fields",
    "C127_overrun_refuted",
    "C127_nul_refuted",
    "C127_injection_refuted"
   ],
   "note": "False without conditions: CR LF in a value starts new lines, a reason phrase longer than a block writes outside of it, one that just fits loses the line feed (refuted). Proved: the exact bytes for all calls and block sizes when the line is not exactly of the size of a block, unique reading when the texts are single lines, field lines are read back, exact condition for the overrun."
  },
  {
   "property": "C128",
   "status": "proved",
   "theorems": [
    "C128_delimited",
    "C128_old_clients",
    "C128_announced",
    "C128_standard"
   ],
   "note": "For handlers that do not set Transfer-Encoding, Connection, Content-Encoding or Vary themselves; CLOSE is accepted for every request (complete_request sets it)."
  },
  {
   "property": "C129",
   "status": "partial",
   "theorems": [
    "C129_both_refuted",
    "C129_one_partial"
   ],
   "note": "False: a handler that sets Content-Length and asks for chunks sends both (refuted). Proved: never both when no chunks are asked for."
  },
  {
   "property": "C130",
   "status": "proved",
   "theorems": [
    "C130_encoding"
   ],
   "note": "For handlers that do not set these headers themselves."
  },
  {
   "property": "C131",
   "status": "partial",
   "theorems": [
    "C131_accepted_partial",
    "C131_together_refuted"
   ],
   "note": "False: options asked for together (CHUNKED|GZIP) are granted when the client takes one of them (refuted). Proved for options asked for one at a time."
  },
  {
   "property": "C132",
   "status": "proved",
   "theorems": [
    "C132_frozen",
    "C132_last_status",
    "C132_refused_status",
    "C132_last_value",
    "C132_nothing_else"
   ],
   "note": "Frozen after the start; last status; last value; nothing else."
  },
  {
   "property": "C133",
   "status": "partial",
   "theorems": [
    "C133_who_partial",
    "C133_answer_partial",
    "C133_refuted"
   ],
   "note": "False: neither the values of Upgrade and Connection nor the version are checked, the 101 answer carries Transfer-Encoding: chunked (refuted). Proved: who is upgraded exactly, and the exact fields of the answer, with the accept key of the RFC."
  },
  {
   "property": "C134",
   "status": "partial",
   "theorems": [
    "C134_intact_partial",
    "C134_refuted",
    "C134_corrupt"
   ],
   "note": "Proved for lines of at most a quarter of the segment. Refuted in full: two lines that do not fit beside one another are enough, and lines with bytes that nobody wrote are then given (C134_corrupt)."
  },
  {
   "property": "C135",
   "status": "proved",
   "theorems": [
    "C135_kept"
   ],
   "note": "For lines of at most a quarter of the segment."
  },
  {
   "property": "C136",
   "status": "partial",
   "theorems": [
    "C136_all_but_one_partial",
    "C136_refuted"
   ],
   "note": "Refuted: one line less than asked for is given, none for 1 (mtev_log_memory_lines passes the number of the first line to a function that gives what follows). Proved exactly: all but the first of the lines asked for."
  },
  {
   "property": "C137",
   "status": "proved",
   "theorems": [
    "C137_follow"
   ],
   "note": "For lines of at most a quarter of the segment; includes when the lines are still there."
  },
  {
   "property": "C138",
   "status": "partial",
   "theorems": [
    "C138_first_lost_partial",
    "C138_refuted"
   ],
   "note": "Refuted: the first line is never logged. Proved exactly: all but the first."
  },
  {
   "property": "C139",
   "status": "partial",
   "theorems": [
    "C139_logged_partial",
    "C139_stuck",
    "C139_refuted"
   ],
   "note": "Proved for lines of at most a quarter of the segment. Refuted: a second line that does not fit beside the first is lost, and every later line, for ever (C139_stuck)."
  },
  {
   "property": "C140",
   "status": "proved",
   "theorems": [
    "C140_inside"
   ],
   "note": "Any lines at all."
  },
  {
   "property": "C141",
   "status": "partial",
   "theorems": [
    "C141_round_trip_partial",
    "C141_word",
    "C141_byte",
    "C141_refuted"
   ],
   "note": "Proved for strings shorter than 256 (p), 32768 (P), 2^31 (a) bytes and all other codes but A; C141_refuted: P with 32768 to 65535 bytes makes unpack use a negative length (C141_word), C141_byte says what is left of longer p strings."
  },
  {
   "property": "C142",
   "status": "partial",
   "theorems": [
    "C142_safe_partial",
    "C142_negative",
    "C142_refuted"
   ],
   "note": "Proved for all data for formats without P and a; C142_refuted and C142_negative: with P or a a length whose top bit is set is used as a negative size."
  },
  {
   "property": "C143",
   "status": "proved",
   "theorems": [
    "C143_cut",
    "C143_unended"
   ],
   "note": "A string z that is cut is taken as ended and is excluded in the statement."
  },
  {
   "property": "C144",
   "status": "proved",
   "theorems": [
    "C144_order"
   ],
   "note": "For values that fit their type; conversion of others is undefined in C."
  },
  {
   "property": "C145",
   "status": "proved",
   "theorems": [
    "C145_counts",
    "C145_plain"
   ],
   "note": "Counts up to 2^31-1; above, the counter overflows."
  },
  {
   "property": "C146",
   "status": "proved",
   "theorems": [
    "C146_errors"
   ],
   "note": "Unknown codes with count 0 are not reached, hence ignored."
  },
  {
   "property": "C147",
   "status": "proved",
   "theorems": [
    "C147_every_way_once",
    "C147_not_needed"
   ],
   "note": "New_on_fd and Resolve are C148."
  },
  {
   "property": "C148",
   "status": "partial",
   "theorems": [
    "C148_on_fd_refuted",
    "C148_resolve_refuted",
    "C148_new_partial",
    "C148_flags_partial"
   ],
   "note": "Refuted for mtev_log_stream_new_on_fd and mtev_log_final_resolve, which do not rematerialize the graph; proved that a following new or change of flags settles it."
  },
  {
   "property": "C149",
   "status": "partial",
   "theorems": [
    "C149_add_returns_partial",
    "C149_loop_refuted",
    "C149_no_loops"
   ],
   "note": "Refuted: an outlet that closes a loop never returns; proved that all others do and that no returned call leaves a loop."
  },
  {
   "property": "C150",
   "status": "proved",
   "theorems": [
    "C150_found",
    "C150_made",
    "C150_parent",
    "C150_new_starts_anew"
   ],
   "note": ""
  },
  {
   "property": "C151",
   "status": "partial",
   "theorems": [
    "C151_last_two_partial",
    "C151_further_up_refuted",
    "C151_alone"
   ],
   "note": "Refuted for streams further up; proved exactly which two streams count."
  },
  {
   "property": "C152",
   "status": "proved",
   "theorems": [
    "C152_split_lines",
    "C152_whole",
    "C152_in_order"
   ],
   "note": ""
  },
  {
   "property": "C153",
   "status": "partial",
   "theorems": [
    "C153_writev_partial",
    "C153_handler_refuted",
    "C153_handler_bad"
   ],
   "note": "Refuted in a signal handler for more than 16384 bytes; proved otherwise."
  },
  {
   "property": "C154",
   "status": "proved",
   "theorems": [
    "C154_add",
    "C154_add_filtered",
    "C154_remove",
    "C154_remove_all",
    "C154_set_flags",
    "C154_set_plain",
    "C154_register",
    "C154_resolve",
    "C154_new_fails"
   ],
   "note": ""
  },
  {
   "property": "C155",
   "status": "proved",
   "theorems": [
    "C155_run_never_early"
   ],
   "note": "C155_run_never_early: every run in every history; needs no discipline of the client."
  },
  {
   "property": "C156",
   "status": "proved",
   "theorems": [
    "C156_run_while_waiting",
    "C156_calls_succeed"
   ],
   "note": "C156_run_while_waiting, C156_calls_succeed."
  },
  {
   "property": "C157",
   "status": "proved",
   "theorems": [
    "C157_run_in_order"
   ],
   "note": "C157_run_in_order."
  },
  {
   "property": "C158",
   "status": "proved",
   "theorems": [
    "C158_dispatch_serves",
    "C158_dispatch_script",
    "C158_dispatch_total"
   ],
   "note": "C158_dispatch_serves (at most once, none left that is due, the clock readings), C158_dispatch_script (what follows each run), C158_dispatch_total."
  },
  {
   "property": "C159",
   "status": "partial",
   "theorems": [
    "C159_sleep_partial",
    "C159_sleep_refuted",
    "C159_sleep_stale_refuted"
   ],
   "note": "C159_sleep_refuted, C159_sleep_stale_refuted: the clock is not read after the last callback, and the sleep time given to the dispatch is not a bound. C159_sleep_partial: the exact sleep time, relative to the last reading."
  },
  {
   "property": "C160",
   "status": "proved",
   "theorems": [
    "C160_timeval_arithmetic",
    "C160_timecompare_orders"
   ],
   "note": "C160_timeval_arithmetic, C160_timecompare_orders."
  },
  {
   "property": "C161",
   "status": "partial",
   "theorems": [
    "C161_update_partial",
    "C161_update_refuted",
    "C161_double_add_aborts"
   ],
   "note": "C161_update_refuted: an event that is not registered gets registered. C161_update_partial: exactly what happens, and that a following add aborts; C161_double_add_aborts."
  },
  {
   "property": "C162",
   "status": "proved",
   "theorems": [
    "C162_wire",
    "C162_words",
    "C162_progress",
    "C162_reads"
   ],
   "note": "All histories of calls of one endpoint (two for C166), whose shared connection delivers bytes."
  },
  {
   "property": "C163",
   "status": "proved",
   "theorems": [
    "C163_frames",
    "C163_any_pieces"
   ],
   "note": "All histories of calls of one endpoint (two for C166), whose shared connection delivers bytes."
  },
  {
   "property": "C164",
   "status": "proved",
   "theorems": [
    "C164_failure",
    "C164_bad_header",
    "C164_final",
    "C164_error"
   ],
   "note": "All histories of calls of one endpoint (two for C166), whose shared connection delivers bytes."
  },
  {
   "property": "C165",
   "status": "proved",
   "theorems": [
    "C165_given",
    "C165_progress"
   ],
   "note": "All histories of calls of one endpoint (two for C166), whose shared connection delivers bytes."
  },
  {
   "property": "C166",
   "status": "proved",
   "theorems": [
    "C166_link",
    "C166_all"
   ],
   "note": "All histories of calls of one endpoint (two for C166), whose shared connection delivers bytes."
  },
  {
   "property": "C167",
   "status": "proved",
   "theorems": [
    "C167_lawful",
    "C167_granted",
    "C167_stops",
    "C167_local_end"
   ],
   "note": "All histories of calls of one endpoint (two for C166), whose shared connection delivers bytes."
  },
  {
   "property": "C168",
   "status": "proved",
   "theorems": [
    "C168_connect"
   ],
   "note": "All histories of calls of one endpoint (two for C166), whose shared connection delivers bytes."
  },
  {
   "property": "C169",
   "status": "partial",
   "theorems": [
    "C169_refuted",
    "C169_clean_partial"
   ],
   "note": "Refuted: channels are used again while frames for their last connection are on their way, and nothing tells the two apart. Proved: a connection is given only what arrived after it was opened."
  },
  {
   "property": "C170",
   "status": "partial",
   "theorems": [
    "C170_unbounded",
    "C170_refuted",
    "C170_taken_partial"
   ],
   "note": "Refuted: frames on free channels and granted CONNECTs do not count against the limit of 500, so one call acts on any number, queueing a RESET for each and writing nothing. Proved: at most 500 frames for connections in use."
  },
  {
   "property": "C171",
   "status": "partial",
   "theorems": [
    "C171_refuted",
    "C171_closed_by_peer_partial"
   ],
   "note": "Refuted: when the local side stops sending, data it had not yet taken is dropped. Proved: nothing is lost if the connection is closed by a frame of the peer."
  },
  {
   "property": "C172",
   "status": "proved",
   "theorems": [
    "C172_advertise",
    "C172_register",
    "C172_off"
   ],
   "note": "All strings and tables."
  },
  {
   "property": "C173",
   "status": "proved",
   "theorems": [
    "C173_select",
    "C173_offered",
    "C173_honest"
   ],
   "note": "All tables and offers; the functions of the library are shown to choose among what is offered."
  },
  {
   "property": "C174",
   "status": "partial",
   "theorems": [
    "C174_refuted",
    "C174_matcher_refuted",
    "C174_unadvertised_refuted",
    "C174_always_partial"
   ],
   "note": "Refuted in three ways: the default function chooses the first name offered whatever name it was found for; the matcher chooses another name of the same length; a name that is known but not advertised is chosen. Proved: what is chosen if all functions are the default."
  },
  {
   "property": "C175",
   "status": "partial",
   "theorems": [
    "C175_refuted",
    "C175_first_lost",
    "C175_matcher_partial"
   ],
   "note": "Refuted: the matcher tests that the first name offered is not its own, so it passes exactly when it should choose. Proved: what the matcher does for every offer."
  },
  {
   "property": "C176",
   "status": "partial",
   "theorems": [
    "C176_refuted",
    "C176_first_partial"
   ],
   "note": "Refuted: the length given is that of the first name. Proved: exactly the first name is offered."
  },
  {
   "property": "C177",
   "status": "partial",
   "theorems": [
    "C177_refuted",
    "C177_there_partial"
   ],
   "note": "Refuted: if a plain file has the name of the directory, mkdir gives EEXIST and the answer is 0. Proved: this is the only case."
  },
  {
   "property": "C178",
   "status": "proved",
   "theorems": [
    "C178_only",
    "C178_top"
   ],
   "note": "All file systems, permissions and names of fewer than PATH_MAX bytes."
  },
  {
   "property": "C179",
   "status": "partial",
   "theorems": [
    "C179_refuted",
    "C179_succeeds_partial"
   ],
   "note": "Refuted: for a file in the root, /f, or in the current directory, f, the answer is -1. Proved: for all other names it succeeds whenever no file is in the way and the directories may be made."
  },
  {
   "property": "C180",
   "status": "partial",
   "theorems": [
    "C180_refuted",
    "C180_exact_partial"
   ],
   "note": "Refuted: the copy is cut to PATH_MAX but the search for the slash starts at the length of the name. Proved: it stays inside exactly for names of at most PATH_MAX bytes."
  },
  {
   "property": "C181",
   "status": "proved",
   "theorems": [
    "C181_tobit",
    "C181_bnot",
    "C181_band",
    "C181_bor",
    "C181_bxor"
   ],
   "note": "For all integer arguments from -2^51 to 2^51 and any number of them, by the bits of the answer."
  },
  {
   "property": "C182",
   "status": "proved",
   "theorems": [
    "C182_logic",
    "C182_single",
    "C182_shift",
    "C182_short",
    "C182_tohex"
   ],
   "note": "Every function, with the thing that is no number in any place, or with the argument missing."
  },
  {
   "property": "C183",
   "status": "proved",
   "theorems": [
    "C183_left",
    "C183_right",
    "C183_sign"
   ],
   "note": "For all numbers and counts from -2^51 to 2^51."
  },
  {
   "property": "C184",
   "status": "partial",
   "theorems": [
    "C184_refuted",
    "C184_rotates_partial",
    "C184_whole_turn"
   ],
   "note": "Does not hold for a count that is a multiple of 32 (C184_refuted; C184_whole_turn says for every such count that the shift by 32, undefined in C, is made); proved for all other counts (C184_rotates_partial)."
  },
  {
   "property": "C185",
   "status": "proved",
   "theorems": [
    "C185_bytes",
    "C185_twice"
   ],
   "note": "For all numbers from -2^51 to 2^51."
  },
  {
   "property": "C186",
   "status": "partial",
   "theorems": [
    "C186_refuted",
    "C186_digits_partial",
    "C186_eight",
    "C186_least"
   ],
   "note": "Does not hold for a count that is -2^31 modulo 2^32 (C186_refuted; C186_least says for every such count that the least int is negated); proved for all other counts (C186_digits_partial) and without a count (C186_eight)."
  },
  {
   "property": "C187",
   "status": "proved",
   "theorems": [
    "C187_exclusive",
    "C187_kernel"
   ],
   "note": "C187_exclusive over all runs; C187_kernel: the kernel's lock is that of the owner the history tells of."
  },
  {
   "property": "C188",
   "status": "partial",
   "theorems": [
    "C188_refuted",
    "C188_failed_call_refuted",
    "C188_keeps_partial"
   ],
   "note": "Does not hold (C188_refuted: a process with two descriptors of the file releases one; C188_failed_call_refuted: a second acquire that fails); proved for processes that close no other descriptor of the file (C188_keeps_partial)."
  },
  {
   "property": "C189",
   "status": "proved",
   "theorems": [
    "C189_free",
    "C189_held",
    "C189_release",
    "C189_interrupted",
    "C189_release_interrupted"
   ],
   "note": "C189_free, C189_held, C189_release, for the state after any run; C189_interrupted and C189_release_interrupted: any number of interruptions before what fcntl does in the end."
  },
  {
   "property": "C190",
   "status": "partial",
   "theorems": [
    "C190_refuted",
    "C190_names_partial"
   ],
   "note": "Does not hold (C190_refuted: another process takes the lock between the two calls of fcntl); proved, with what it means for *owner to be -1, if nothing happens between them (C190_names_partial)."
  }
 ]
}
