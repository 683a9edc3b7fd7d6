{"id": "C01", "title": "Base32 encode then decode is the identity", "statement": "Encoding any byte string with mtev_b32_encode into a buffer of mtev_b32_encode_len bytes and decoding the result with mtev_b32_decode yields exactly the original bytes and the original length; the same holds when '-' or whitespace is sprinkled between the encoded characters.", "quantifier": "every byte string, every length, every placement of ignorable characters", "why_tests_cant": "The input space is infinite and every residue of the length mod 5 interacts with every bit pattern in the last partial group.", "anchors": ["src/utils/mtev_b32.c:mtev_b32_encode", "src/utils/mtev_b32.c:mtev_b32_decode", "src/utils/mtev_b32.c:mtev_b32_encode_len"]}
{"id": "C02", "title": "Base32 codec never writes outside the caller's buffer", "statement": "For every input and every declared destination size, mtev_b32_encode and mtev_b32_decode store only at offsets below the destination size.", "quantifier": "every input text (valid or not) and every destination size", "why_tests_cant": "An overflow needs a particular malformed text together with a particular destination size; sampling sizes cannot exclude it.", "anchors": ["src/utils/mtev_b32.c:mtev_b32_encode", "src/utils/mtev_b32.c:mtev_b32_decode"]}
{"id": "C03", "title": "Base64 encode then decode is the identity", "statement": "Decoding the base64 text produced for any byte string (or for any split of it into an iovec) returns exactly the original bytes; encoding an iovec equals encoding the concatenation of its pieces.", "quantifier": "every byte string and every partition of it into iovecs", "why_tests_cant": "Carry state crosses iovec boundaries, so every partition of every string is a separate case.", "anchors": ["src/utils/mtev_b64.c:mtev_b64_encode", "src/utils/mtev_b64.c:mtev_b64_encodev", "src/utils/mtev_b64.c:mtev_b64_decode", "src/aklomp-base64/lib"]}
{"id": "C04", "title": "Base64 decoding is bounded by the declared buffer and by the reported maximum", "statement": "For every text, mtev_b64_decode never stores at or beyond the destination length it was given, and never returns more than mtev_b64_max_decode_len of the text length.", "quantifier": "every text (valid or malformed) and every destination length", "why_tests_cant": "Malformed texts with padding and junk in arbitrary places cannot be enumerated.", "anchors": ["src/utils/mtev_b64.c:mtev_b64_decode", "src/utils/mtev_b64.c:mtev_b64_max_decode_len"]}
{"id": "C05", "title": "URL encode then decode is the identity, also in place", "statement": "mtev_url_decode applied to the output of mtev_url_encode returns the original bytes for every byte string; the encoder emits only RFC 3986 unreserved characters and %XX triples; encoding with the source overlapping the head of the destination gives the same text as encoding between disjoint buffers.", "quantifier": "every byte string, every sufficiently large destination, overlapping or not", "why_tests_cant": "In-place operation overwrites its own input; correctness depends on the relation between read and write cursors at every position of every input.", "anchors": ["src/utils/mtev_url.c:mtev_url_encode", "src/utils/mtev_url.c:mtev_url_decode"]}
{"id": "C06", "title": "URL codec never writes outside the caller's buffer", "statement": "For every input and destination length accepted, every byte stored (including the terminator) by mtev_url_encode / mtev_url_decode lies below the destination length.", "quantifier": "every input, every destination length", "why_tests_cant": "The failing case is a single boundary size for a particular input composition.", "anchors": ["src/utils/mtev_url.c:mtev_url_encode", "src/utils/mtev_url.c:mtev_url_decode", "src/utils/mtev_url.c:mtev_url_encode_len", "src/utils/mtev_url.c:mtev_url_max_decode_len"]}
{"id": "C07", "title": "HTML encoding is injective, inert and bounded", "statement": "The text mtev_html_encode produces contains no raw '<', '>', '\"' or unescaped '&', replacing the entities gives back the source, nothing is stored past the destination, and a destination of mtev_html_encode_len bytes is always enough.", "quantifier": "every byte string and destination length", "why_tests_cant": "Success depends on the exact position where expansion meets the end of the buffer.", "anchors": ["src/utils/mtev_url.c:mtev_html_encode", "src/utils/mtev_url.c:mtev_html_encode_len"]}
{"id": "C08", "title": "UUID text and binary forms are inverse and parsing is strict", "statement": "mtev_uuid_parse(mtev_uuid_unparse_lower/upper(u)) = u for every 16 byte value; parse accepts exactly the 36-character strings made of 8-4-4-4-12 hex groups, never reads past the terminator, and unparse of an accepted text is its lower/upper case form.", "quantifier": "all 2^128 identifiers and all candidate texts", "why_tests_cant": "2^128 values and arbitrary malformed texts.", "anchors": ["src/utils/mtev_uuid_parse.c:mtev_uuid_parse", "src/utils/mtev_uuid_parse.c:mtev_uuid_unparse_lower"]}
{"id": "C09", "title": "List merge sort returns a sorted permutation", "statement": "mtev_merge_sort terminates on every finite list and leaves the caller's list holding exactly the same nodes, ordered by the comparison function, for every comparator that is a total preorder.", "quantifier": "every list, every length, every total preorder", "why_tests_cant": "The bottom-up merge has a different run structure for every length.", "anchors": ["src/utils/mtev_sort.c:mtev_merge_sort"]}
{"id": "C10", "title": "List merge sort is stable, as its documentation says", "statement": "Nodes that compare equal keep their relative order.", "quantifier": "every list and comparator", "why_tests_cant": "Stability is a universally quantified relation over all pairs of all lists.", "anchors": ["src/utils/mtev_sort.c:mtev_merge_sort", "src/utils/mtev_sort.h"]}
{"id": "C11", "title": "Bounded substring search finds the first occurrence", "statement": "strnstrn(needle, nlen, haystack, hlen) returns the first offset at which the needle occurs in the haystack and NULL exactly when it does not occur, for every needle shorter than the compiled table.", "quantifier": "every needle up to the table size and every haystack", "why_tests_cant": "KMP failure links are exercised only by self-overlapping needles of every shape.", "anchors": ["src/utils/mtev_str.c:strnstrn", "src/utils/mtev_str.c:kmp_precompute", "src/utils/mtev_str.c:match_needle_haystack"]}
{"id": "C12", "title": "String append/prepend buffers equal concatenation", "statement": "After any sequence of appends and prepends to an mtev string buffer the visible string is the corresponding concatenation and every store stays inside the allocation.", "quantifier": "every sequence of append/prepend operations with every string length", "why_tests_cant": "Growth happens at sizes determined by the whole history.", "anchors": ["src/utils/mtev_str.c:mtev_prepend_str", "src/utils/mtev_str.c:mtev_append_str_buff", "src/utils/mtev_str.h"]}
{"id": "C13", "title": "LRU cache holds the most recently used keys", "statement": "For every history of put/get/release/remove/invalidate on a cache with max_entries > 0, get returns the last value put for the key unless it was removed or evicted, an eviction happens only when a new key meets a full cache and picks the least recently used key, and the number of keys never exceeds the configured maximum.", "quantifier": "every finite history of operations and every capacity", "why_tests_cant": "Eviction depends on the whole history.", "anchors": ["src/utils/mtev_lru.c:mtev_lru_put", "src/utils/mtev_lru.c:mtev_lru_get", "src/utils/mtev_lru.c:mtev_lru_remove"]}
{"id": "C14", "title": "LFU cache evicts a least frequently used key and stays within its bound", "statement": "For every history of put/get/release/remove/invalidate on a cache with max_entries > 0, a get returns the last value put for the key unless it was removed or evicted, mtev_lfu_size is the number of cached keys and at most the configured maximum, and a put evicts only when a new key meets a full cache: then exactly one key leaves, and no cached key has been used less often since it was stored.", "quantifier": "every finite history and capacity", "why_tests_cant": "Frequency buckets are created, merged and dropped depending on the entire history.", "anchors": ["src/utils/mtev_lfu.c:mtev_lfu_put", "src/utils/mtev_lfu.c:mtev_lfu_get", "src/utils/mtev_lfu.c:mtev_lfu_remove"]}
{"id": "C15", "title": "Prefix trie answers are longest-prefix matches", "statement": "After any history of route additions and deletions, looking an address up returns the data and prefix length of the longest configured prefix that covers it, and reports absence exactly when no configured prefix covers it.", "quantifier": "every history of adds and deletes over IPv4/IPv6 prefixes and every address", "why_tests_cant": "The trie shape depends on insertion order; the set of route sets and addresses is astronomically large.", "anchors": ["src/utils/mtev_btrie.c:mtev_add_route_ipv4", "src/utils/mtev_btrie.c:mtev_find_bpm_route_ipv4", "src/utils/mtev_btrie.c:mtev_del_route_ipv4"]}
{"id": "C16", "title": "Flow regulator never exceeds its limit and issues each transition once", "statement": "For every interleaving of any number of producers and consumers, the amount admitted never exceeds the high mark, disable and enable notifications strictly alternate, and no assertion in the acknowledgement call can fire when callers acknowledge exactly what they were told.", "quantifier": "every number of threads and every schedule of atomic steps", "why_tests_cant": "Schedules of compare-and-swap loops cannot be enumerated or forced by tests.", "anchors": ["src/utils/mtev_flow_regulator.c:mtev_flow_regulator_raise_one", "src/utils/mtev_flow_regulator.c:mtev_flow_regulator_lower", "src/utils/mtev_flow_regulator.c:mtev_flow_regulator_ack"]}
{"id": "C17", "title": "Flow regulator never loses a wake-up", "statement": "Whenever no call is in progress and the regulated flow is stopped with the disable acknowledged, the outstanding amount is above the low mark; so draining always produces an enable notification.", "quantifier": "every number of threads and every schedule", "why_tests_cant": "A lost wake-up shows only on particular interleavings of two atomics.", "anchors": ["src/utils/mtev_flow_regulator.c:mtev_flow_regulator_lower", "src/utils/mtev_flow_regulator.c:mtev_flow_regulator_ack"]}
{"id": "C18", "title": "Hook chains run most recent first, abort stops them and done sticks", "statement": "Invoking a hook runs registered callbacks in reverse order of registration until one aborts; the result is abort if any ran callback aborted, otherwise done if any returned done, otherwise continue; with nothing registered it is continue.", "quantifier": "every registration history and every vector of callback results", "why_tests_cant": "Chains of every length and result pattern.", "anchors": ["src/utils/mtev_hooks.h:MTEV_HOOK_IMPL"]}
{"id": "C19", "title": "No hook registration is lost under concurrency", "statement": "If any number of threads register callbacks on the same hook concurrently, all of the callbacks are on the chain once the calls return.", "quantifier": "every number of registering threads and every schedule", "why_tests_cant": "Losing a registration needs a preemption between two adjacent loads.", "anchors": ["src/utils/mtev_hooks.h:MTEV_HOOK_IMPL"]}
{"id": "C20", "title": "Calendar conversion agrees with the proleptic Gregorian calendar", "statement": "mtev_timegm maps every valid broken-down UTC time from 1970 on to the number of seconds since the epoch given by the Gregorian calendar, and the textual date parser subtracts the zone offset from that value.", "quantifier": "every date from 1970 on without upper bound and every time of day", "why_tests_cant": "Leap rules interact over 400-year periods; the range is unbounded.", "anchors": ["src/utils/mtev_confstr.c:mtev_timegm", "src/utils/mtev_confstr.c:mtev_confstr_parse_time_gm"]}
{"id": "C21", "title": "Date validation accepts exactly the dates of the Gregorian calendar", "statement": "A textual date is accepted by the time parser exactly when its day exists in its month and year.", "quantifier": "every year, month and day", "why_tests_cant": "Errors appear only in particular century years.", "anchors": ["src/utils/mtev_confstr.c:is_valid_date"]}
{"id": "C22", "title": "Duration strings mean the sum of their terms", "statement": "mtev_confstr_parse_duration returns the sum over all terms of number times unit, accepts exactly sequences of number+unit terms separated by optional whitespace, and the ms/us/ns variants agree up to the scale factor.", "quantifier": "every string", "why_tests_cant": "Infinite grammar and unit aliases; overflow appears only at large values.", "anchors": ["src/utils/mtev_confstr.c:mtev_confstr_parse_duration"]}
{"id": "C23", "title": "Consistent hashing returns distinct owners in ring order", "statement": "For every set of nodes, weight and key there is one order of all nodes such that a lookup of n owners (up to 256) returns its first n elements: n distinct nodes when n does not exceed the number of nodes, a prefix of the answer for larger n; when no two points of the circle collide the first is the node responsible for the key's hash.", "quantifier": "every node set, weight and hash function value", "why_tests_cant": "Any arrangement of hash values (including collisions) on the ring may occur.", "anchors": ["src/utils/mtev_cht.c:mtev_cht_vlookup_n", "src/utils/mtev_cht.c:mtev_cht_set_nodes"]}
{"id": "C24", "title": "Consistent hashing moves only the keys it must", "statement": "Removing a node from the ring changes the owner of a key only if the removed node owned it; adding a node only moves keys to the new node.", "quantifier": "every ring and key (hash collisions excluded)", "why_tests_cant": "Universal statement over all rings and all hash values.", "anchors": ["src/utils/mtev_cht.c:mtev_cht_set_nodes", "src/utils/mtev_cht.c:mtev_cht_lookup_n"]}
{"id": "C25", "title": "Dynamic buffers hold exactly what was appended", "statement": "After any sequence of add / ensure / printf / stores through the write pointer / reset / destroy, the used region equals the concatenation of what was appended since the last reset, used plus the room obtained never exceeds the allocation, the text is NUL terminated inside the allocation after a printf, the conditional printf appends exactly when text and terminator fit, and detaching returns the text with a terminator.", "quantifier": "every sequence of operations and every length up to 2^62 (2^30 when the int-measured printf is used)", "why_tests_cant": "The switch from static to heap storage and each doubling happens at history-dependent points.", "anchors": ["src/utils/mtev_dyn_buffer.c:mtev_dyn_buffer_add", "src/utils/mtev_dyn_buffer.c:mtev_dyn_buffer_ensure", "src/utils/mtev_dyn_buffer.c:mtev_dyn_buffer_add_vprintf", "src/utils/mtev_dyn_buffer.c:mtev_dyn_buffer_destroy_detach_data"]}
{"id": "C26", "title": "Console tokenizer reproduces quoted words", "statement": "Tokenizing a line made of words each written by the documented rules (single quotes, double quotes with C escapes, bare with escaped spaces) returns exactly these words and their number, storing no more than *cnt; every list of words can be written that way; on every other string the scanner stops without reading past the terminator and returns the number of words or a negative offset.", "quantifier": "every list of words over all bytes, every input string and capacity", "why_tests_cant": "Escapes and quotes can be combined in unboundedly many ways.", "anchors": ["src/mtev_tokenizer.c:mtev_tokenize", "src/mtev_tokenizer.re"]}
{"id": "C27", "title": "Interned strings are equal exactly when their handles are equal", "statement": "For every history of intern / copy / release, two live handles are the same pointer exactly when their contents are equal, a handle's contents never change while it is held, and an entry is reclaimed only after its last release.", "quantifier": "every history of interns and releases, every schedule of the reference-count steps", "why_tests_cant": "The reclaim/re-intern race needs particular schedules; contents equality quantifies over all strings.", "anchors": ["src/utils/mtev_intern.c:mtev_intern_str", "src/utils/mtev_intern.c:mtev_intern_release_pool", "src/utils/mtev_intern.c:mtev_intern_copy"]}
{"id": "C28", "title": "Intern pool allocator never hands out overlapping memory", "statement": "For every history of allocations, frees and compactions, live regions of the intern pool are pairwise disjoint, within the extents and disjoint from free regions; compaction preserves the total free space.", "quantifier": "every history of allocations, frees and compactions", "why_tests_cant": "Fragmentation patterns depend on the whole history.", "anchors": ["src/utils/mtev_intern.c:mtev_intern_pool_borrow_free_node", "src/utils/mtev_intern.c:compact_freelist"]}
{"id": "C29", "title": "Skip list behaves as an ordered set", "statement": "For every history of inserts, removes and finds and every outcome of the random level choice, the list contents are the strictly sorted set of inserted-and-not-removed elements; find returns the element and its neighbours; insert of a duplicate fails and leaves the set unchanged.", "quantifier": "every history and every random choice", "why_tests_cant": "Random tower heights make each run a different structure.", "anchors": ["src/utils/mtev_skiplist.c:mtev_skiplist_insert_compare", "src/utils/mtev_skiplist.c:mtev_skiplist_remove_compare", "src/utils/mtev_skiplist.c:mtev_skiplist_find_compare"]}
{"id": "C30", "title": "Logic expressions evaluate by boolean algebra over the bound variables", "statement": "Evaluating a tree without NULL nodes yields the truth value of the corresponding boolean formula over its predicates, independently of argument order and short-circuiting. A predicate says of the value the program's lookup function set (string, integer, double) what its operator and literal mean: strings compare by length and then bytes, numbers as 64-bit integers or as doubles. A missing variable or NULL string falsifies every predicate except the negated comparisons. has_predicate finds exactly the names compared.", "quantifier": "every expression tree, every answer of the lookup function within the documented limits, every earlier content of the variable", "why_tests_cant": "Trees of every depth and every value; tests fix a handful.", "anchors": ["src/utils/mtev_logic.c:mtev_logic_exec", "src/utils/mtev_logic.c:mtev_logic_exec_predicate", "src/utils/mtev_logic.c:mtev_logic_has_predicate"]}
{"id": "C31", "title": "Job queue neither loses nor duplicates jobs and keeps subqueue order", "statement": "In every interleaving of enqueues, dequeues and completions on a job queue whose LIFO setting is switched off only while nothing waits, each job put in is handed to exactly one worker or still waits; each subqueue is a line (first in, first out by default, last in first out under LIFO); a worker let through by the counting semaphore always gets a job; a waiting job is handed out at once to a worker that asks; and a subqueue that was torn down is never used again.", "quantifier": "every interleaving of any number of enqueue, dequeue and completion calls over any number of subqueues, any change of concurrency", "why_tests_cant": "Round-robin state, in-flight targets, semaphore and queue order combine over the whole history and all interleavings.", "anchors": ["src/eventer/eventer_jobq.c:eventer_jobq_enqueue_internal", "src/eventer/eventer_jobq.c:__eventer_jobq_dequeue", "src/eventer/eventer_jobq.c:mark_squeue_job_completed"]}
{"id": "C32", "title": "Job queue backlog limit is respected", "statement": "A try-enqueue on a queue with a configured backlog limit is refused exactly when the number of jobs accepted and not yet started has reached the limit, so that number never exceeds the limit through try-enqueue, whatever calls run at the same time.", "quantifier": "every interleaving", "why_tests_cant": "The counter is updated from several paths by concurrent compare-and-swap loops; only the whole history determines it.", "anchors": ["src/eventer/eventer_jobq.c:eventer_jobq_try_enqueue"]}
{"id": "C33", "title": "Hash table behaves as a finite map", "statement": "For every history of store / replace / set / retrieve / delete over arbitrary binary keys, results equal those of a finite map, store never overwrites, replace frees exactly the displaced key and value, and the size is the number of bound keys.", "quantifier": "every history over arbitrary byte keys", "why_tests_cant": "Key comparison involves length prefixes; arbitrary keys and histories.", "anchors": ["src/utils/mtev_hash.c:mtev_hash_store", "src/utils/mtev_hash.c:mtev_hash_replace", "src/utils/mtev_hash.c:mtev_hash_retrieve", "src/utils/mtev_hash.c:mtev_hash_delete"]}
{"id": "C34", "title": "Fixed-size replacing hash never returns a value for another key", "statement": "A get returns the value most recently stored by a successful set for exactly that key, or NULL when there is none or a set of a colliding key displaced it; the returned data stay readable and unchanged while the caller uses them, provided freef defers release to the end of the calls in progress or calls do not overlap. A set returns true exactly when it stored; at the maximum replacement probability it fails only if another set took the place meanwhile; every call finishes in a bounded number of its own steps.", "quantifier": "every hash function, table size, collision pattern, schedule of any number of concurrent gets and sets and address chosen by the allocator", "why_tests_cant": "Collisions must be adversarially chosen and races span a few instructions.", "anchors": ["src/utils/mtev_frrh.c:mtev_frrh_get", "src/utils/mtev_frrh.c:mtev_frrh_set", "src/utils/mtev_frrh.c:mtev_frrh_stats"]}
{"id": "C35", "title": "Cardinality sketch depends only on the set of values added", "statement": "The state of a hyperloglog and hence its estimate depends only on the set of hash values added: order and repetition are irrelevant, and adding a value never decreases any register.", "quantifier": "every sequence of additions and every precision", "why_tests_cant": "Order and repetition independence quantifies over all permutations of all streams.", "anchors": ["src/utils/mtev_hyperloglog.c:mtev_hyperloglog_add"]}
{"id": "C36", "title": "Cluster heartbeat messages round-trip", "statement": "Processing a heartbeat message composed by a member updates the receiver's view of that member to exactly the sender's boot time, sequence and payload bytes and stamps the contact time; no other member's view changes; messages that are too short or carry an incompatible version change nothing; any other byte string is taken at face value for the sender it names.", "quantifier": "every history of the receiver, every sender state with at most 255 registered payloads, and every byte string received", "why_tests_cant": "Arbitrary bytes arrive from the network, after arbitrary earlier messages.", "anchors": ["src/mtev_cluster.c:mtev_cluster_info_compose", "src/mtev_cluster.c:mtev_cluster_info_process"]}
{"id": "C37", "title": "Cluster heartbeat payloads are retrievable by application and key", "statement": "After a heartbeat is processed, asking for the payload registered by the sender under (application, key) returns exactly its bytes, and asking for an unregistered one returns -1, without reading outside the stored message.", "quantifier": "every set of registered payloads with every length", "why_tests_cant": "Offsets depend on all preceding payload lengths.", "anchors": ["src/mtev_cluster.c:mtev_cluster_get_heartbeat_payload", "src/mtev_cluster.c:mtev_cluster_set_heartbeat_payload"]}
{"id": "C38", "title": "The oldest visible cluster node is the live node with the least boot time", "statement": "After any history of boots, reboots, deaths and timeouts, the reported oldest node is a live node whose boot time is minimal among live nodes.", "quantifier": "every history of node updates", "why_tests_cant": "Incremental maintenance may be wrong only after particular sequences of reboots.", "anchors": ["src/mtev_cluster.c:mtev_cluster_find_oldest_node", "src/mtev_cluster.c:mtev_cluster_on_node_changed", "src/mtev_cluster.c:mtev_cluster_check_timeout"]}
{"id": "C39", "title": "Chunked request bodies decode independently of how the network splits them", "statement": "For every chunked body without chunk extensions or trailers, with size lines of at most 18 digits and chunks below 2 GB, and every partition of its bytes into reads on a connection that stays open: the bytes handed to the application are the concatenation of the chunks' data in order, the end is reported exactly after the zero-size chunk and from then on always, no byte after the body is taken, and once all bytes arrive a caller that keeps reading gets the whole body and the end.", "quantifier": "every body, every chunking, every partition into reads, every sequence of caller buffer sizes", "why_tests_cant": "Reads can split inside sizes, CRLFs and data in exponentially many ways.", "anchors": ["src/mtev_http1.c:mtev_http1_session_req_consume_read", "src/mtev_http1.c:mtev_http1_session_req_consume"]}
{"id": "C40", "title": "HTTP output is written in order and exactly once under short writes", "statement": "For every sequence of appends, flushes and event-loop rounds and every sequence of partial, blocked, failed and full socket writes, the bytes delivered to the socket form a prefix of the header bytes followed by the encoded bytes of the accepted appends; a chunked response is encoded as well-formed chunks; completion without an error is flagged only after the response was closed and everything was delivered; while the response is open and the socket works, no append to a chunked or close-delimited response is refused; and no internal assertion fails.", "quantifier": "every schedule of short writes and every chain of output buffers (blocks below 2 GB)", "why_tests_cant": "Short-write schedules are controlled by the kernel.", "anchors": ["src/mtev_http1.c:_http_perform_write", "src/mtev_http1.c:mtev_http1_response_flush", "src/mtev_http.c:mtev_http_response_append", "src/mtev_http_private.h:mtev_http_process_output_bchain"]}
{"id": "C41", "title": "Counting semaphore admits at most its value", "statement": "For every interleaving of post, wait and trywait by any number of threads, the number of completed waits never exceeds initial value plus posts, and a waiter blocks only while the value is zero.", "quantifier": "every number of threads and schedule", "why_tests_cant": "Schedules of the mutex/condition implementation cannot be enumerated.", "anchors": ["src/utils/mtev_sem.c:mtev_sem_wait", "src/utils/mtev_sem.c:mtev_sem_post", "src/utils/mtev_sem.c:mtev_sem_trywait"]}
{"id": "C42", "title": "JSON strings round-trip through serialisation", "statement": "Parsing the serialised form of any JSON value built from null, booleans, integers, strings, arrays and objects yields an equal value.", "quantifier": "every JSON value of every nesting depth and all string bytes", "why_tests_cant": "Unbounded nesting and arbitrary bytes.", "anchors": ["src/json-lib/mtev_json_object.c:mtev_json_escape_str", "src/json-lib/mtev_json_tokener.c:mtev_json_tokener_parse_ex"]}
{"id": "C43", "title": "Base64 decoding is a function of the text", "statement": "The bytes mtev_b64_decode stores for an accepted text are determined by the text alone (no byte of the result is an indeterminate value).", "quantifier": "every text and every destination length the call accepts", "why_tests_cant": "Whether an uninitialised temporary reaches the output depends on where padding falls; on a test machine the stale stack value usually looks plausible.", "anchors": ["src/utils/mtev_b64.c:mtev_b64_decode"]}
{"id": "C44", "title": "Substring search touches only the bytes it is given", "statement": "strnstrn / match_needle_haystack reads only the needle and haystack bytes passed in and stores only in its own table, for every needle length its size check accepts.", "quantifier": "every needle of up to 256 bytes and every haystack", "why_tests_cant": "The overrun is silent: it depends on what lies next to the needle and on the stack layout.", "anchors": ["src/utils/mtev_str.c:kmp_precompute", "src/utils/mtev_str.c:match_needle_haystack"]}
{"id": "C45", "title": "A string taken from an append buffer is NUL terminated", "statement": "mtev_str_buff_to_string returns a C string equal to the concatenation of everything appended.", "quantifier": "every initial size and every sequence of appends of NUL-free strings", "why_tests_cant": "The terminator is missing only when the content exactly fills the allocation, which depends on the whole history of sizes.", "anchors": ["src/utils/mtev_str.c:mtev_str_buff_to_string", "src/utils/mtev_str.c:mtev_append_str_buff"]}
{"id": "C46", "title": "Bounded string copies never overrun and always terminate", "statement": "mtev_strlcpy/mtev_strlcat store at most size bytes, leave a terminated prefix of the full result when size > 0 and report the untruncated length; mtev_strndup copies exactly the first min(len, strlen) bytes and never reads past them.", "quantifier": "every source, destination content and size", "why_tests_cant": "Off-by-one stores are invisible to a test unless the neighbouring byte matters.", "anchors": ["src/utils/mtev_str.c:strlcpy", "src/utils/mtev_str.c:strlcat", "src/utils/mtev_str.c:mtev_strndup"]}
{"id": "C47", "title": "Bounded LRU cache disposes of every value exactly once", "statement": "For a cache with max_entries > 0 and any sequence of put/get/release/remove/invalidate calls by a client that only releases tokens it holds, every value ever put is at every moment in exactly one of three states: still owned by a live entry, passed to free_fn, or handed back by mtev_lru_remove. free_fn is called at most once per entry, and has been called exactly for the entries that are neither cached nor held by an outstanding token.", "quantifier": "all capacities > 0, all call sequences, keys and values", "why_tests_cant": "leaks and double frees depend on the interleaving of evictions, overwrites and outstanding tokens over unbounded histories", "anchors": ["src/utils/mtev_lru.c:116-299"]}
{"id": "C48", "title": "Unlimited LRU cache behaves as an owning map", "statement": "With max_entries <= 0 the cache never evicts: mtev_lru_get returns exactly the value most recently put under the key and not removed since, put may overwrite, and invalidate releases every cached value.", "quantifier": "all call sequences, keys and values", "why_tests_cant": "the unlimited mode shares the code paths of the bounded one and misbehaves only on overwrites and invalidation", "anchors": ["src/utils/mtev_lru.c:116-299"]}
{"id": "C49", "title": "Bounded LFU cache disposes of every value exactly once", "statement": "For a cache with max_entries > 0 and any sequence of put/get/release/remove/invalidate calls by a client that only releases tokens it holds, every value ever put is at every moment in exactly one of three states: still owned by a live entry, passed to free_fn, or handed back by mtev_lfu_remove. free_fn is called at most once per entry, and has been called exactly for the entries that are neither cached nor held by an outstanding token.", "quantifier": "all capacities > 0, all call sequences, keys and values", "why_tests_cant": "leaks and double frees depend on the interleaving of evictions, overwrites, bucket moves and outstanding tokens over unbounded histories", "anchors": ["src/utils/mtev_lfu.c:128-455"]}
{"id": "C50", "title": "LFU cache frees its frequency buckets, and is a plain owning map when unbounded", "statement": "Every frequency bucket is freed exactly once when it leaves the bucket list; the list never holds an empty bucket or two buckets for the same count. With max_entries < 0 the cache never evicts, a get returns the last value put, and every value is disposed of exactly once; with max_entries = 0 every get reports a miss with a NULL value.", "quantifier": "all call sequences, keys, values and values of max_entries", "why_tests_cant": "a leaked or doubly freed bucket depends on which counts are present next to each other over the history", "anchors": ["src/utils/mtev_lfu.c:167-289", "src/utils/mtev_lfu.c:292-381"]}
{"id": "C51", "title": "Prefix trie calls are total", "statement": "Adding, deleting and looking up routes with a prefix length valid for the family never dereferences NULL, never writes outside the trie's own memory and never fails an assertion.", "quantifier": "every history of adds and deletes over IPv4/IPv6 prefixes and every address looked up", "why_tests_cant": "the failure depends on which node is at the root and on the nesting depth of the configured prefixes", "anchors": ["src/utils/mtev_btrie.c:124-178", "src/utils/mtev_btrie.c:217-298"]}
{"id": "C52", "title": "Prefix trie releases each route's data once", "statement": "The release callback is called exactly once on the (non-NULL) data of each route: when it is deleted, or when the tree is dropped; not on data of routes still configured.", "quantifier": "every history of adds and deletes, followed by drop_tree", "why_tests_cant": "leaks and double releases depend on the shape of the trie at the time of the deletion", "anchors": ["src/utils/mtev_btrie.c:62-75", "src/utils/mtev_btrie.c:124-149"]}
{"id": "C53", "title": "IPv4 routes and IPv6 lookups do not interfere", "statement": "A route configured for IPv4 is never the answer for an IPv6 address and the other way round, even when both are kept in one trie (as the REST ACLs do).", "quantifier": "every history mixing IPv4 and IPv6 routes and every address", "why_tests_cant": "an interfering pair is a coincidence of leading bits that a test suite has no reason to try", "anchors": ["src/utils/mtev_btrie.c:179-323", "src/mtev_rest.c:198-217", "src/mtev_rest.c:1405-1429"]}
{"id": "C54", "title": "Configuration booleans", "statement": "mtev_confstr_parse_boolean accepts exactly yes/true/on and no/false/off in any letter case, with the evident meaning.", "quantifier": "every string", "why_tests_cant": "the set of strings is infinite", "anchors": ["src/utils/mtev_confstr.c:135-146"]}
{"id": "C55", "title": "The stable flow-regulator calls wake every refused producer", "statement": "Using only mtev_flow_regulator_stable_try_raise_one and mtev_flow_regulator_stable_lower, a producer that was refused is woken later: once every call has returned and all admitted work is done, some stable_lower has returned true (the documented signal to re-schedule work creation) since the refused call began.", "quantifier": "every number of threads, every low/high and every schedule of atomic steps", "why_tests_cant": "The losing schedule needs a consumer to drain between a producer's compare-and-swap and its acknowledgement while a second producer is refused.", "anchors": ["src/utils/mtev_flow_regulator.c:mtev_flow_regulator_stable_try_raise_one", "src/utils/mtev_flow_regulator.c:mtev_flow_regulator_stable_lower"]}
{"id": "C56", "title": "The published share of a node is the fraction of hashes it serves", "statement": "After mtev_cht_set_nodes, the owned field of each node is exactly the fraction of all hash values whose lookup leads to that node (so the shares sum to one).", "quantifier": "every node set, weight and hash function, every number of bits", "why_tests_cant": "It equates a sum over arcs with a count over up to 2^32 lookups.", "anchors": ["src/utils/mtev_cht.c:mtev_cht_calculate_ring", "src/utils/mtev_cht.c:mtev_cht_vlookup_n"]}
{"id": "C57", "title": "Building the hash ring terminates and keeps every node that fits", "statement": "For every number of bits accepted by mtev_cht_alloc_custom and every node set with at most 2^bits points, mtev_cht_set_nodes terminates whatever the hash values, and keeps all the nodes.", "quantifier": "every node set, weight, bits and hash function", "why_tests_cant": "Collision repair loops until no change; termination must hold for all collision patterns.", "anchors": ["src/utils/mtev_cht.c:mtev_cht_set_nodes", "src/utils/mtev_cht.c:mtev_cht_alloc_custom"]}
{"id": "C58", "title": "Dynamic buffers waste at most half and leak nothing", "statement": "Whatever the history, the allocation of a dynamic buffer is at most 4096 bytes or twice the largest total ever requested, it owns at most one heap block, and destroying it releases that block.", "quantifier": "every sequence of operations", "why_tests_cant": "Growth depends on the whole history of sizes.", "anchors": ["src/utils/mtev_dyn_buffer.c:mtev_dyn_buffer_ensure", "src/utils/mtev_dyn_buffer.c:mtev_dyn_buffer_destroy"]}
{"id": "C59", "title": "Formatted appends either append or leave the buffer alone", "statement": "mtev_dyn_buffer_add_printf and add_vprintf append the formatted text, or leave the contents unchanged when formatting fails, for every buffer and every text.", "quantifier": "every buffer state, every text or formatting error", "why_tests_cant": "Formatting errors and gigabyte-sized buffers do not occur in tests.", "anchors": ["src/utils/mtev_dyn_buffer.c:mtev_dyn_buffer_add_vprintf", "src/utils/mtev_dyn_buffer.c:mtev_dyn_buffer_maybe_add_vprintf", "src/utils/mtev_dyn_buffer.c:mtev_dyn_buffer_add_printf"]}
{"id": "C60", "title": "Unbalanced quotes on a command line are reported", "statement": "A line whose last quote is never closed makes mtev_tokenize return a negative value.", "quantifier": "every line", "why_tests_cant": "The end of input can fall in any scanner state.", "anchors": ["src/mtev_tokenizer.re", "src/mtev_tokenizer.c:token_scan"]}
{"id": "C61", "title": "Changing the LIFO setting of a job queue loses no job", "statement": "eventer_jobq_set_lifo may be called at any time; jobs that wait are still handed out.", "quantifier": "every history including changes of the LIFO setting", "why_tests_cant": "The loss needs jobs waiting under LIFO, a switch back, and one more enqueue before they are drained.", "anchors": ["src/eventer/eventer_jobq.c:eventer_jobq_set_lifo", "src/eventer/eventer_jobq.c:eventer_jobq_enqueue_internal"]}
{"id": "C62", "title": "Subqueues of a job queue share the workers fairly", "statement": "A job is taken from a subqueue that already occupies its share of the workers (concurrency divided by the number of subqueues, at least one) only if every subqueue with waiting jobs occupies its share.", "quantifier": "every state reachable in any interleaving", "why_tests_cant": "The round-robin position and in-flight counts depend on the whole history.", "anchors": ["src/eventer/eventer_jobq.c:__eventer_jobq_dequeue"]}
{"id": "C63", "title": "Interning an item of a documented size always finds memory", "statement": "For every history of interns, releases and compactions and every extent size, interning an item of any documented length terminates with memory for it, and no call fails an assertion or indexes outside the table of free lists.", "quantifier": "every extent size, item length, history and placement of the mappings by mmap", "why_tests_cant": "Failures need particular relations between item size, extent size and the sizes of merged fragments (4 GiB), far outside what a test allocates.", "anchors": ["src/utils/mtev_intern.c:mtev_intern_pool_find", "src/utils/mtev_intern.c:replace_free_node", "src/utils/mtev_intern.c:compact_freelist_with_lock"]}
{"id": "C64", "title": "Interned handles stay valid under every interleaving", "statement": "While any number of threads intern, copy and release in a pool, no assertion in the code fails and no returned memory is touched; a held handle's contents never change; an entry is reclaimed only when no references are held; the reported reference count covers all held references and equals them when no call is in progress; when no call is in progress every remaining entry is held by someone, the pool's item count is their number; and while memory can be had some call can always proceed.", "quantifier": "every number of threads, every schedule of the atomic steps of every call, every byte string", "why_tests_cant": "The races (re-interning an entry whose count just dropped to zero, two threads inserting the same bytes, a reader holding an entry being retired) need particular schedules out of an unbounded set.", "anchors": ["src/utils/mtev_intern.c:mtev_intern_pool_ex", "src/utils/mtev_intern.c:mtev_intern_release_pool", "src/utils/mtev_intern.c:mtev_intern_copy", "src/utils/mtev_intern.c:mtev_intern_get_refcnt"]}
{"id": "C65", "title": "The cardinality estimate is always a number", "statement": "For every sketch of a legal precision and every set of values added, the size computation shifts, sums and divides within the range of its types and never divides by zero.", "quantifier": "every precision from 4 to 20 and every stream of values", "why_tests_cant": "The sum vanishes only when every register holds an improbable rank, which takes hundreds of millions of values or chosen hashes.", "anchors": ["src/utils/mtev_hyperloglog.c:mtev_hyperloglog_estimate", "src/utils/mtev_hyperloglog.c:mtev_hyperloglog_size"]}
{"id": "C66", "title": "Displaced hash entries are released once, and never under a reader", "statement": "Each entry displaced from the replacing hash, or prepared by a set that lost, is passed to freef exactly once and never while it is in the table; no get, probability function or caller reads an entry after its release.", "quantifier": "every schedule of any number of concurrent gets and sets", "why_tests_cant": "A read after free needs a set to replace the entry between two instructions of a get and usually goes unnoticed.", "anchors": ["src/utils/mtev_frrh.c:mtev_frrh_get", "src/utils/mtev_frrh.c:mtev_frrh_set"]}
{"id": "C67", "title": "Hash entries fit the memory requested for them", "statement": "In a block of the size that mtev_frrh_set requests, the key ends before the data begin, the data are 8-byte aligned and end within the block, if the allocator returns 8-byte aligned addresses; for any other alignment some key length overruns the block.", "quantifier": "every address, key length and data size", "why_tests_cant": "Depends on the alignment the allocator happens to give.", "anchors": ["src/utils/mtev_frrh.h:MTEV_FRRH_DATA", "src/utils/mtev_frrh.c:MTEV_FRRH_BASE_SIZE", "src/utils/mtev_frrh.c:mtev_frrh_set"]}
{"id": "C68", "title": "Merging dictionaries copies every binding and frees what it displaces", "statement": "mtev_hash_merge_as_dict(dst, src), when the keys of src are C strings counted with or without their NUL and its values are NULL or C strings, leaves every key of src bound in dst to fresh copies of its key and value, every other key of dst bound as before, frees exactly the displaced keys and values of dst once each, and dst goes on working as that finite map. A key counted longer than its string and NUL makes it read past the end of the copy.", "quantifier": "every destination history, every source dictionary", "why_tests_cant": "Interleavings of overlapping and fresh keys, NULL values and key lengths are unbounded, and over-reads of a heap copy go unnoticed.", "anchors": ["src/utils/mtev_hash.c:mtev_hash_merge_as_dict", "src/utils/mtev_hash.c:mtev_hash_replace"]}
{"id": "C69", "title": "Comparison operators of logic expressions negate one another", "statement": "For a variable that is present, != is the negation of =, >= of <, <= of >, and !~ of ~, whatever the variable and the literal; strings are totally ordered; an integer and its decimal text are interchangeable; evaluating a predicate never aborts.", "quantifier": "every value and every literal", "why_tests_cant": "The exceptions sit at particular combinations of types and lengths.", "anchors": ["src/utils/mtev_logic.c:mtev_logic_exec_predicate", "src/utils/mtev_logic.c:strllcmp"]}
{"id": "C70", "title": "Every text of the expression grammar parses to the tree it denotes", "statement": "Given the text of an expression of the grammar with any spacing it allows, any quoting and any nesting, mtev_logic_parse returns the tree the text denotes. Every string without NUL can be written as a literal.", "quantifier": "every expression and every text of it", "why_tests_cant": "Texts of unbounded nesting with arbitrary spacing and escapes.", "anchors": ["src/utils/mtev_logic.c:mtev_logic_parse", "src/utils/mtev-logic.leg"]}
{"id": "C71", "title": "mtev_logic_parse refuses what is not an expression", "statement": "mtev_logic_parse returns a tree only for the text of one expression, and the tree returned can be evaluated; space around commas does not matter.", "quantifier": "every input text", "why_tests_cant": "The texts wrongly accepted are arbitrary non-expressions.", "anchors": ["src/utils/mtev_logic.c:mtev_logic_parse", "src/utils/mtev-logic-leg.c:yyparse"]}
{"id": "C72", "title": "The last setter decides the value of a logic variable", "statement": "When a lookup function calls several of the mtev_logic_var_set functions on the variable it is handed, the predicate is evaluated on the value set last.", "quantifier": "every earlier content of the variable, every value set last, every predicate", "why_tests_cant": "Which earlier calls matter depends on how the earlier value was stored.", "anchors": ["src/utils/mtev_logic.c:mtev_logic_var_set_int64", "src/utils/mtev_logic.c:mtev_logic_var_tostring"]}
{"id": "C73", "title": "Registered heartbeat payloads behave as a bounded map that fits a frame", "statement": "Setting and unsetting heartbeat payloads behaves as a map from (application, key) to bytes, a set that is refused changes nothing, and whatever was admitted composes into a heartbeat that fits one Ethernet frame of 1518 bytes.", "quantifier": "every sequence of set and unset calls", "why_tests_cant": "The limit is on the sum over all payloads ever registered and not removed.", "anchors": ["src/mtev_cluster.c:mtev_cluster_set_heartbeat_payload", "src/mtev_cluster.c:mtev_cluster_unset_heartbeat_payload", "src/mtev_cluster.c:mtev_cluster_info_compose"]}
{"id": "C74", "title": "Cluster members agree on who owns a key", "statement": "Of the members of a cluster exactly min(w, members, 256) answer that they own a key when asked for w owners; asking for more never takes ownership away; with the same filter exactly one member is told that it comes first; and members that list the same nodes in any order agree.", "quantifier": "every cluster, key hash, w, filter and order of the configuration", "why_tests_cant": "Agreement is a statement about all members' answers for all keys.", "anchors": ["src/mtev_cluster.c:mtev_cluster_do_i_own", "src/mtev_cluster.c:mtev_cluster_filter_owners", "src/mtev_cluster.c:mtev_cluster_compile", "src/mtev_cluster.c:mtev_cluster_get_nodes"]}
{"id": "C75", "title": "Cluster updates are ordered by sequence and report what they did", "statement": "A registered cluster is never lost and only ever replaced by a configuration with a larger sequence; the stored values are those written; and the return value of an update says whether it was refused, inserted, updated or out of date.", "quantifier": "every sequence of cluster configurations", "why_tests_cant": "Updates race between members and arrive in any order with any content.", "anchors": ["src/mtev_cluster.c:mtev_cluster_update_internal"]}
{"id": "C76", "title": "The cluster hook is called once for every change of a node", "statement": "A heartbeat that changes the boot time, sequence or payload known of a node calls the update hook exactly once, with flags that say which of them changed and the old boot time; one that changes nothing does not call it.", "quantifier": "every state of the receiver and every message", "why_tests_cant": "The flags depend on the combination of what changed.", "anchors": ["src/mtev_cluster.c:mtev_cluster_info_process", "src/mtev_cluster.c:mtev_cluster_on_node_changed"]}
{"id": "C77", "title": "A timeout check kills exactly the silent nodes", "statement": "After a timeout check a node is dead iff it was, or it was not heard of for more than the timeout and its boot is older than the maturity; nothing but boot times changes.", "quantifier": "every state, time, timeout and maturity", "why_tests_cant": "The microsecond arithmetic borrows in both directions; the boundary depends on all digits.", "anchors": ["src/mtev_cluster.c:mtev_cluster_check_timeout", "src/utils/mtev_defines.h:sub_timeval_ms"]}
{"id": "C78", "title": "A closed HTTP response is delivered if the socket keeps taking bytes", "statement": "After any sequence of operations on a response without a socket error, closing it on a socket every write of which takes at least one byte sends all of it after finitely many writes and flags completion, whatever write limit was configured.", "quantifier": "every response, every write limit, every socket that takes at least a byte per write", "why_tests_cant": "Liveness under all short-write schedules and configurations.", "anchors": ["src/mtev_http1.c:_http_perform_write", "src/mtev_http1.c:mtev_http1_session_set_max_write"]}
{"id": "C79", "title": "Request bodies with a content length are read exactly", "statement": "For every body with a Content-Length and every partition of the bytes into reads on a connection that stays open, the application is handed exactly the body in order, the end is reported exactly after it, no byte after it is taken, and once all bytes arrive a caller that keeps reading gets the whole body and the end.", "quantifier": "every body, every partition into reads, every sequence of caller buffer sizes", "why_tests_cant": "All splits of all bodies.", "anchors": ["src/mtev_http1.c:mtev_http1_session_req_consume_read", "src/mtev_http1.c:mtev_http1_session_req_consume"]}
{"id": "C80", "title": "Pipelined request bytes survive to the next request", "statement": "Bytes that arrive after the end of a request's body on a keep-alive connection are the start of the next request, however they were split into reads.", "quantifier": "every body, every continuation, every partition into reads", "why_tests_cant": "Depends on whether the kernel hands the bytes over in one read.", "anchors": ["src/mtev_http1.c:mtev_http1_request_release"]}
{"id": "C81", "title": "Only well-formed chunked bodies are accepted", "statement": "If a chunked request body is read to its end, the bytes consumed are a chunked body as RFC 7230 section 4.1 defines it and the bytes handed over are its data.", "quantifier": "every byte sequence, every partition into reads", "why_tests_cant": "Quantifies over all malformed inputs.", "anchors": ["src/mtev_http1.c:mtev_http1_session_req_consume_read"]}
{"id": "C82", "title": "No input makes the chunk reader claim bytes beyond its buffer", "statement": "For every byte sequence of less than 2^31-4 bytes sent as a chunked body, every partition into reads, connection loss included, and every sequence of buffer sizes, the size of the input block never wraps around.", "quantifier": "every byte sequence, every partition into reads", "why_tests_cant": "Memory safety over all hostile inputs.", "anchors": ["src/mtev_http1.c:mtev_http1_session_req_consume_read"]}
{"id": "C83", "title": "Body bytes that were received are handed over without waiting for more", "statement": "A call that asks for body bytes answers try-again only if no byte of the body that was received before the call is still to be handed over.", "quantifier": "every body, every partition into reads, every sequence of buffer sizes", "why_tests_cant": "Depends on how reads, chunk boundaries and buffer sizes interleave.", "anchors": ["src/mtev_http1.c:mtev_http1_session_req_consume"]}
{"id": "C84", "title": "Expect: 100-continue works on a slow connection", "statement": "After a request with Expect: 100-continue, the interim response is sent and followed by the application's response, whatever the socket accepts at once.", "quantifier": "every schedule of short writes", "why_tests_cant": "The send buffer is practically never full in a test.", "anchors": ["src/mtev_http1.c:mtev_http1_complete_request", "src/mtev_http1.c:_http_construct_leader"]}
{"id": "C85", "title": "Arrays and objects survive serialisation and parsing", "statement": "The serialised form of an array or object nested at most 31 levels deep, parsed with its length or as a C string, yields an object of the same value: members in the same order, strings byte for byte, integers of all three kinds, and nothing is left unread.", "quantifier": "all arrays and objects built through the API, of any width, with any strings and numbers", "why_tests_cant": "Values are an infinite recursive type; every escape, digit string and nesting pattern has to survive.", "anchors": ["src/json-lib/mtev_json_object.c:mtev_json_object_to_json_string", "src/json-lib/mtev_json_tokener.c:mtev_json_tokener_parse_ex"]}
{"id": "C86", "title": "Feeding the JSON parser in pieces equals feeding it the whole text", "statement": "Splitting a text over several mtev_json_tokener_parse_ex calls, going on while the parser reports continue, gives the value that the whole text gives.", "quantifier": "every text, every partition into pieces (also empty ones, also within escapes, numbers and literals)", "why_tests_cant": "Every split position interacts with every parser state.", "anchors": ["src/json-lib/mtev_json_tokener.c:mtev_json_tokener_parse_ex"]}
{"id": "C87", "title": "Every JSON document is accepted with its value", "statement": "The parser accepts every RFC 8259 document whose top level is an array or object, returns the value the RFC gives it and leaves what follows the document unread.", "quantifier": "every document of the grammar", "why_tests_cant": "The grammar is infinite.", "anchors": ["src/json-lib/mtev_json_tokener.c:mtev_json_tokener_parse_ex"]}
{"id": "C88", "title": "JSON numbers are returned by the getters", "statement": "An integer within a getter's range, whether parsed or put in through the API, is what that getter returns.", "quantifier": "every integer from -2^63 to 2^64-1 and every integer getter", "why_tests_cant": "Ranges of 2^64 values with representation switches at several limits.", "anchors": ["src/json-lib/mtev_json_object.c:mtev_json_object_get_int64", "src/json-lib/mtev_json_tokener.c:mtev_json_tokener_parse_ex"]}
{"id": "C89", "title": "The JSON parser stays within its stack and returns", "statement": "No input makes the parser use more than its 32 levels, and every call returns; after any result, including errors, further calls and resets keep this.", "quantifier": "every sequence of calls with any bytes", "why_tests_cant": "Hostile inputs cannot be enumerated.", "anchors": ["src/json-lib/mtev_json_tokener.c:mtev_json_tokener_parse_ex", "src/json-lib/mtev_json_tokener.c:mtev_json_tokener_reset"]}
{"id": "C90", "title": "A JSON text that was cut short is not accepted as something else", "statement": "Parsing a beginning of a valid text either reports that it is incomplete or gives the value of the whole text.", "quantifier": "every text and every position where it is cut, with mtev_json_tokener_parse and with parse_ex", "why_tests_cant": "Every cut position of every text.", "anchors": ["src/json-lib/mtev_json_tokener.c:mtev_json_tokener_parse", "src/json-lib/mtev_json_tokener.c:mtev_json_tokener_parse_ex"]}
{"id": "C91", "title": "JSON objects are maps in insertion order", "statement": "object_get returns what object_add stored last for the key (NULL after object_del or if never added), iteration visits each member once in the order of its last object_add, and no call follows a NULL link or leaves the table.", "quantifier": "every sequence of add, delete and get calls that return, every hash function, any number of members and growths", "why_tests_cant": "Depends on hash collisions, tombstones and growth in every combination.", "anchors": ["src/json-lib/mtev_json_linkhash.c:jl_lh_table_insert", "src/json-lib/mtev_json_linkhash.c:jl_lh_table_delete_entry", "src/json-lib/mtev_json_object.c:mtev_json_object_object_add"]}
{"id": "C92", "title": "Calls on JSON objects return", "statement": "mtev_json_object_object_get, add and del return on every object, whatever was added and deleted before.", "quantifier": "every sequence of calls and all keys", "why_tests_cant": "Needs a particular pattern of hash values and deletions.", "anchors": ["src/json-lib/mtev_json_linkhash.c:jl_lh_table_lookup_entry", "src/json-lib/mtev_json_linkhash.c:jl_lh_table_insert"]}
{"id": "C93", "title": "JSON arrays keep what was put into them", "statement": "For indices from 0: array_get_idx returns what array_put_idx or array_add put there last, NULL for holes and beyond the end; the length is one above the highest index put; a replaced element is released.", "quantifier": "every sequence of puts and adds, any gaps", "why_tests_cant": "Growth by doubling or by gap at every index.", "anchors": ["src/json-lib/mtev_json_arraylist.c:jl_array_list_put_idx", "src/json-lib/mtev_json_arraylist.c:jl_array_list_get_idx"]}
{"id": "C94", "title": "Every value put into a JSON object or array is released exactly once", "statement": "Over the life of a container, including its destruction, each value handed to it is released exactly once, whether by overwriting, deletion or at the end.", "quantifier": "every sequence of calls", "why_tests_cant": "Double frees and leaks depend on the history.", "anchors": ["src/json-lib/mtev_json_linkhash.c:jl_lh_table_free", "src/json-lib/mtev_json_arraylist.c:jl_array_list_free"]}
{"id": "C95", "title": "The JSON text buffer never overflows and holds what was appended", "statement": "After any appends and resets the buffer holds exactly the bytes appended since the last reset followed by a NUL, and no byte outside of it was written.", "quantifier": "every sequence of appends of any lengths (below 2^31 in all)", "why_tests_cant": "Each length relative to the remaining room matters.", "anchors": ["src/json-lib/mtev_json_printbuf.c:jl_printbuf_memappend", "src/json-lib/internal_printbuf.h:jl_printbuf_memappend_fast"]}
{"id": "C96", "title": "A REST request goes to the first matching route under the longest registered base", "statement": "For a method other than OPTIONS, and route expressions whose match has at most nine groups, the route taken is the first registered one with the method of the request (for a websocket: \"WS\" and a compatible protocol) whose expression matches the rest of the URI, among the routes of the longest registered base the URI starts with; 404 exactly when there is none; no memory outside the request is read.", "quantifier": "every history of registrations, every request, every behaviour of PCRE", "why_tests_cant": "Overlapping bases, methods and expressions combine without bound.", "anchors": ["src/mtev_rest.c:mtev_http_find_matching_route_rule", "src/mtev_rest.c:mtev_http_rest_new_rule_auth_closure"]}
{"id": "C97", "title": "A REST handler receives the groups its expression captured", "statement": "Whenever the expression of the route matches, its handler is called with the texts of the captured groups in order, whatever their number.", "quantifier": "every set of routes, every request, every result of pcre_exec", "why_tests_cant": "Optional and numerous groups are rarely tried; a wrong offset only shows for some URIs.", "anchors": ["src/mtev_rest.c:mtev_http_find_matching_route_rule"]}
{"id": "C98", "title": "OPTIONS lists the methods a URL answers to", "statement": "An OPTIONS request for a URL is answered with OPTIONS and the methods of all the matching routes under the longest base, in order of registration; with 404 when there is none.", "quantifier": "every history of registrations, every URL", "why_tests_cant": "Quantifies over all sets of routes.", "anchors": ["src/mtev_rest.c:mtev_http_find_matching_route_rule", "src/mtev_rest.c:mtev_http_rest_options_response"]}
{"id": "C99", "title": "The first access control list that applies decides, by its first rule that applies, else by its type", "statement": "With a configuration of usable conditions and no skipto, a client is allowed exactly when, in the first acl element whose conditions hold, the first rule whose conditions hold has type=\"allow\", or no rule holds and the acl has type=\"allow\".", "quantifier": "every configuration, every client, every behaviour of PCRE", "why_tests_cant": "Precedence among lists, rules and defaults for all combinations of conditions.", "anchors": ["src/mtev_rest.c:mtev_http_rest_client_cert_auth", "src/mtev_rest.c:mtev_http_rest_load_rules", "docs-md/development/rest.md"]}
{"id": "C100", "title": "REST access is denied by default", "statement": "Access is granted only by a rule of type=\"allow\" within an acl element; without any, or when nothing applies, it is denied.", "quantifier": "every configuration, including unusable conditions and skipto, every client", "why_tests_cant": "An absence of grants over all configurations.", "anchors": ["src/mtev_rest.c:mtev_http_rest_client_cert_auth"]}
{"id": "C101", "title": "A condition that cannot be used never widens access", "statement": "A rule with a condition (user, auth, cn, url, ip, listener_*) whose value cannot be compiled or understood applies to no client.", "quantifier": "every value of the conditions, every client", "why_tests_cant": "Misconfigurations are what tests leave out; the effect is silent.", "anchors": ["src/mtev_rest.c:compile_re", "src/mtev_rest.c:compile_cidr", "src/mtev_rest.c:accrue_and_compile"]}
{"id": "C102", "title": "A rule with skipto continues at the rule of that name", "statement": "When a rule with skipto applies, evaluation continues with the rule of that name, in whichever acl it is, and no memory that is not a rule is read.", "quantifier": "every configuration with names and skiptos, every client", "why_tests_cant": "Depends on positions of names and on object types in memory.", "anchors": ["src/mtev_rest.c:mtev_http_rest_load_rules", "src/mtev_rest.c:mtev_http_rest_client_cert_auth"]}
{"id": "C103", "title": "A rule with an ip applies to exactly the clients in that network", "statement": "A rule with ip=\"address[/mask]\" applies to the clients of that address family whose leading mask bits are those of the address, and to no others.", "quantifier": "every address and mask of both families, every client address", "why_tests_cant": "2^128 addresses; masks at every bit.", "anchors": ["src/mtev_rest.c:compile_cidr", "src/mtev_rest.c:match_cidr", "src/utils/mtev_btrie.c"]}
{"id": "C104", "title": "A REST handler runs only for authorised requests", "statement": "The handler of a route runs only if its authorisation function returned true, or the application's own denial hook lifted the denial; an unauthorised request is answered by the denial handler, an authorised one by the handler with its closure and parameters.", "quantifier": "every set of routes, every request, every behaviour of authorisation functions and hooks", "why_tests_cant": "A security property over all combinations of hooks and functions.", "anchors": ["src/mtev_rest.c:mtev_http_get_handler"]}
{"id": "C105", "title": "A websocket handler receives only messages of authorised clients", "statement": "No message reaches the handler of a websocket route registered with an authorisation function unless that function returns true.", "quantifier": "every set of routes, every sequence of messages, every authorisation function", "why_tests_cant": "The violation needs several messages in one read, or a look at which of two registrations carries the function.", "anchors": ["src/mtev_rest.c:mtev_http_get_websocket_handler", "src/mtev_rest.c:mtev_http_rest_websocket_register_auth_closure", "src/mtev_rest.c:mtev_rest_websocket_dispatcher"]}
{"id": "C106", "title": "The file handler serves only files below the document root", "statement": "Whatever path is requested, the file served by mtev_rest_simple_file_handler is below the configured document_root.", "quantifier": "every document root, every requested path, every file system", "why_tests_cant": "Path traversal over all directory names.", "anchors": ["src/mtev_rest.c:mtev_rest_simple_file_handler"]}
{"id": "C107", "title": "The content type of a file follows its extension", "statement": "The content type is the one configured (mime_type_EXT) or known for what follows the last dot of the file name; a file without a dot is looked up by its whole name.", "quantifier": "every file name, every configuration", "why_tests_cant": "All positions and numbers of dots and slashes.", "anchors": ["src/mtev_rest.c:mtev_rest_simple_file_handler"]}
{"id": "C108", "title": "URL decoding inverts URL encoding", "statement": "A path or parameter written in any URL encoding (bytes as themselves, + for space, %XY with digits of either case) is decoded to exactly the original bytes; a percent sign that two hexadecimal digits do not follow is kept.", "quantifier": "every byte string and every way to encode it; every text", "why_tests_cant": "All encodings of all byte strings, overlapping and truncated escapes included.", "anchors": ["src/mtev_http_private.h:inplace_urldecode"]}
{"id": "C109", "title": "Query parameters are those the URI states", "statement": "After a request is read, mtev_http_request_uri_str is the decoded part before the first question mark, mtev_http_request_orig_querystring the text after it, and mtev_http_request_querystring of a name is the decoded value of the first parameter with that name, NULL for a name without value or not present.", "quantifier": "every path, every list of parameters, every encoding, every number of ampersands between them", "why_tests_cant": "All parameter lists with repetitions, empty values and encodings.", "anchors": ["src/mtev_http1.c:mtev_http1_process_querystring", "src/mtev_http_private.h:inplace_urldecode"]}
{"id": "C110", "title": "A request is taken as it was written", "statement": "A request head of one request line and header lines (names of any case, blanks around the colon, folded lines), with any line ends before it, is served with exactly the method, URI and protocol of the request line, for each header name the value of the last such header, the accepted encodings it mentions, and every byte after the head left for the body, however the network cuts it, if it fits three quarters of a block.", "quantifier": "every request, every header list, every sequence of reads and would-block answers, every block size", "why_tests_cant": "All cuts of all requests.", "anchors": ["src/mtev_http1.c:mtev_http1_complete_request", "src/mtev_http1.c:mtev_http1_request_finalize", "src/mtev_http1.c:mtev_http1_request_finalize_headers"]}
{"id": "C111", "title": "What becomes of a request head does not depend on how it arrives", "statement": "Whether a head is served or refused, and with which fields, depends on its bytes only, not on how the reads cut it.", "quantifier": "every head of lines, every sequence of reads", "why_tests_cant": "All cuts, including those at a block boundary.", "anchors": ["src/mtev_http1.c:mtev_http1_request_finalize", "src/mtev_http1.c:_fixup_bchain", "src/mtev_http1.c:mtev_http1_complete_request"]}
{"id": "C112", "title": "Only a request is taken for one", "statement": "A head (without NUL) that is served has a request line of three parts separated by single spaces and only header lines with a colon or lines continuing one.", "quantifier": "every head that fits, every sequence of reads", "why_tests_cant": "All malformed heads.", "anchors": ["src/mtev_http1.c:mtev_http1_request_finalize_headers", "src/mtev_http1.c:_extract_header"]}
{"id": "C113", "title": "No header of a served request is lost", "statement": "Every header sent before the empty line of a served request is in its header table (the last of each name).", "quantifier": "every head, NUL bytes included", "why_tests_cant": "All byte values at all positions.", "anchors": ["src/mtev_http1.c:mtev_http1_request_finalize_headers"]}
{"id": "C114", "title": "The body of a request is delimited as RFC 7230 says", "statement": "A request has a chunked body iff its last transfer coding is chunked (any case), otherwise a body of the stated Content-Length if it is a number and none without; other lengths are refused; Expect: 100-continue is answered when a body follows.", "quantifier": "every request and header list", "why_tests_cant": "All spellings of codings and lengths.", "anchors": ["src/mtev_http1.c:mtev_http1_request_finalize_headers"]}
{"id": "C115", "title": "No bytes make the head reader leave its buffers", "statement": "Reading a request head never reads or writes outside of the input blocks.", "quantifier": "every head of lines, every sequence of reads, every block size", "why_tests_cant": "All inputs and cuts.", "anchors": ["src/mtev_http1.c:_fixup_bchain", "src/mtev_http1.c:mtev_http1_request_finalize_headers"]}
{"id": "C116", "title": "Method and protocol are recognized by their exact names", "statement": "mtev_http_request_method is GET, HEAD or POST iff the method is spelled exactly so (methods are case-sensitive), and the protocol HTTP/1.1 or HTTP/1.0 iff it is named.", "quantifier": "every request line", "why_tests_cant": "All spellings.", "anchors": ["src/mtev_http1.c:_method_enum", "src/mtev_http1.c:_protocol_enum"]}
{"id": "C117", "title": "An issued login cookie identifies its user until it expires", "statement": "The cookie that http_hmac_cookie sets for user u and auth data a at time t, sent back in any Cookie header (other cookies around it, none of the same name before it), authenticates exactly (u, a) while the clock is before t + max_age, and nobody from then on.", "quantifier": "all users and auth data shorter than 256 bytes, all nonces, keys, times, lifetimes and accompanying cookies", "why_tests_cant": "The space of names, binary signatures and header layouts is unbounded; every byte value must survive the encoding.", "anchors": ["src/modules/http_hmac_cookie.c:http_hmac_http_refresh_cookie", "src/modules/http_hmac_cookie.c:http_hmac_http_request_complete"]}
{"id": "C118", "title": "Only a cookie with a valid signature authenticates", "statement": "Whenever a request is authenticated by cookie as (u, a), the header contains mtevauth=v where v encodes a payload bearing the HMAC of a text that consists of the fixed header, a nonce, u, a and an expiry time later than now. If only issued texts bear signatures, u and a are those a cookie was issued for. Texts signed for different data differ.", "quantifier": "all Cookie headers, keys, clock values", "why_tests_cant": "Quantifies over all headers an attacker may send.", "anchors": ["src/modules/http_hmac_cookie.c:http_hmac_http_request_complete", "src/modules/http_hmac_cookie.c:signit"]}
{"id": "C119", "title": "The user in a cookie is the user who logged in", "statement": "The identity a cookie authenticates is the one mtev_http_request_set_auth recorded when it was issued, whatever its length.", "quantifier": "all users and auth data", "why_tests_cant": "All lengths; the length byte wraps at 256.", "anchors": ["src/modules/http_hmac_cookie.c:http_hmac_http_refresh_cookie"]}
{"id": "C120", "title": "Cookie handling stays inside its buffers", "statement": "No Cookie header makes http_hmac_cookie read or write outside of its arrays, and issuing a cookie never moves the buffer a pointer was kept into.", "quantifier": "all headers, users, auth data, hosts", "why_tests_cant": "Absence of overruns for every input.", "anchors": ["src/modules/http_hmac_cookie.c:http_hmac_http_request_complete", "src/modules/http_hmac_cookie.c:http_hmac_http_refresh_cookie"]}
{"id": "C121", "title": "The credentials checked are those entered in the login form", "statement": "The user name, password and destination a browser submits (application/x-www-form-urlencoded) are the ones the login handler passes to the authentication hook.", "quantifier": "all values", "why_tests_cant": "All strings, with every character a form may contain.", "anchors": ["src/modules/http_hmac_cookie.c:http_login"]}
{"id": "C122", "title": "A login succeeds only with credentials that are accepted", "statement": "http_login answers with the redirect only if the authentication hook accepted the credentials submitted, or they are those of a configured test user; otherwise the form is shown again.", "quantifier": "all hooks, forms, test users and authentication states of the request", "why_tests_cant": "All hook behaviours and requests.", "anchors": ["src/modules/http_hmac_cookie.c:http_login", "src/modules/http_hmac_cookie.c:do_auth"]}
{"id": "C123", "title": "After login the browser stays on the site", "statement": "The Location header sent after login is a path of this server and adds no other header line.", "quantifier": "all login forms", "why_tests_cant": "All destinations a form may carry.", "anchors": ["src/modules/http_hmac_cookie.c:http_login"]}
{"id": "C124", "title": "After login the browser is at the page that was asked for", "statement": "A request that is denied for lack of a login is sent to the login page with the page in the parameter whereto; the login page hands it to the form, and the successful login redirects to it.", "quantifier": "all paths and query strings, credentials, hooks", "why_tests_cant": "A composition of four encodings over all strings.", "anchors": ["src/modules/http_hmac_cookie.c:build_login_buff", "src/modules/http_hmac_cookie.c:http_hmac_cookie_auth_denied", "src/modules/http_hmac_cookie.c:http_login"]}
{"id": "C125", "title": "The domain of a login cookie is one the host belongs to", "statement": "With no domain configured, the Domain attribute of the cookie is what follows the first dot of the host name, if that has a dot itself and ends in a letter; ports are left out, addresses and short names get none.", "quantifier": "all Host headers", "why_tests_cant": "All host names.", "anchors": ["src/modules/http_hmac_cookie.c:http_hmac_http_refresh_cookie"]}
{"id": "C126", "title": "The cookie module does what it is configured to", "statement": "key, max_age, domain and user_NAME of the module configuration take effect, settings that are absent have their defaults, and only a key of the wrong size is rejected.", "quantifier": "all configurations", "why_tests_cant": "All sets of settings.", "anchors": ["src/modules/http_hmac_cookie.c:http_hmac_cookie_config"]}
{"id": "C127", "title": "A client reads the status line and exactly the headers a handler set", "statement": "The bytes of the head of an HTTP/1 response, over any layout of buffers, are the status line, one line per header in the response's table in case-insensitive order, and an empty line; a client that reads up to the first empty line finds these and nothing else, and what follows is the body.", "quantifier": "all sequences of status, header and option calls, all texts, all block sizes", "why_tests_cant": "Header values and reason phrases are unbounded texts that cross buffer boundaries anywhere.", "anchors": ["src/mtev_http1.c:_http_construct_leader", "src/mtev_http1.c:mtev_http1_response_status_set", "src/mtev_http1.c:mtev_http1_response_header_set"]}
{"id": "C128", "title": "A client can always tell where the body of a response ends", "statement": "Whatever a handler does (short of setting the framing headers itself), the head announces a Content-Length, or chunked coding and the body is chunked, or that the connection closes and it is closed; chunks and encodings never go to clients older than HTTP/1.1.", "quantifier": "all sequences of calls, all client protocols and accepted options", "why_tests_cant": "All orders of calls and option combinations.", "anchors": ["src/mtev_http1.c:_http_construct_leader", "src/mtev_http1.c:mtev_http1_response_option_set", "src/mtev_http1.c:mtev_http1_response_flush"]}
{"id": "C129", "title": "A response never announces both a length and chunks", "statement": "No response carries Content-Length and Transfer-Encoding at once (RFC 7230, 3.3.2).", "quantifier": "all sequences of calls", "why_tests_cant": "All orders of calls.", "anchors": ["src/mtev_http1.c:mtev_http1_response_option_set", "src/mtev_http1.c:_http_construct_leader"]}
{"id": "C130", "title": "The content encoding announced is the one the body goes through", "statement": "Content-Encoding in the head names the compression applied to the body, is absent when there is none, and Vary: Accept-Encoding accompanies it.", "quantifier": "all sequences of calls, all accepted options", "why_tests_cant": "All combinations of options, including the choice made when the head is built.", "anchors": ["src/mtev_http1.c:mtev_http1_response_option_set", "src/mtev_http1.c:_http_construct_leader"]}
{"id": "C131", "title": "A client gets an encoding only if it accepts it", "statement": "The compression applied to the body is one of those found in the Accept-Encoding of the request, and chunks are sent only to a client that takes them.", "quantifier": "all sequences of calls, all requests", "why_tests_cant": "All combinations of option bits.", "anchors": ["src/mtev_http1.c:mtev_http1_response_option_set"]}
{"id": "C132", "title": "The head is what the handler last said, and final once output has started", "statement": "The status sent is the last valid one set (100 to 999), every header has the last value it was given, no header is sent that was not given or is one of the server's own; after the first flush every setter is refused and changes nothing.", "quantifier": "all sequences of calls", "why_tests_cant": "All sequences of calls.", "anchors": ["src/mtev_http1.c:mtev_http1_response_status_set", "src/mtev_http1.c:mtev_http1_response_header_set", "src/mtev_http1.c:mtev_http1_response_option_set", "src/mtev_http1.c:mtev_http1_response_flush"]}
{"id": "C133", "title": "A websocket handshake follows RFC 6455", "statement": "A request is upgraded exactly if it asks for a websocket (Upgrade: websocket, Connection: upgrade, a key of 24 characters, version 13), and the answer is 101 with the accept key of the RFC, Connection: Upgrade and no framing headers.", "quantifier": "all requests and keys, any SHA-1", "why_tests_cant": "All header values.", "anchors": ["src/mtev_http1.c:mtev_http1_websocket_handshake", "src/mtev_http1.c:mtev_http1_create_websocket_accept_key"]}
{"id": "C134", "title": "A memory log gives back its lines as they were written", "statement": "What mtev_log_memory_lines_since hands to its callback is a run of the latest lines written, each with its number, its time and its exact text, for every sequence of lines that fit in the log.", "quantifier": "all sequences of lines, numbers of slots and sizes of the segment, any former memory contents", "why_tests_cant": "The ring wraps at every combination of line lengths; which lines are written over depends on the whole history.", "anchors": ["src/utils/mtev_log.c:membuf_logio_writev", "src/utils/mtev_log.c:mtev_log_memory_lines_since"]}
{"id": "C135", "title": "A memory log keeps the recent lines", "statement": "With lines of at most L bytes (a quarter of the log or less), a line is still there as long as it is among the last nlogs-1 and the lines from it on take no more than the segment less L bytes; never more than nlogs-1 are kept.", "quantifier": "all sequences of such lines, all nlogs >= 3 and segment sizes", "why_tests_cant": "Amount kept depends on where each line fell in the ring.", "anchors": ["src/utils/mtev_log.c:membuf_logio_writev", "src/utils/mtev_log.c:intersect_seg"]}
{"id": "C136", "title": "mtev_log_memory_lines gives the number of lines asked for", "statement": "Asked for n lines, the callback is given the last n lines in the log (all of them for 0), oldest first.", "quantifier": "all sequences of lines, all n", "why_tests_cant": "All fill levels of the ring.", "anchors": ["src/utils/mtev_log.c:mtev_log_memory_lines"]}
{"id": "C137", "title": "A reader that follows a memory log sees every line once", "statement": "A reader that has seen the lines up to number k and asks for those after k gets exactly the lines written since, each once and in order, if fewer than nlogs were written that take no more than the segment less one line; if lines were lost in between it gets all that are left.", "quantifier": "all sequences of lines before and after", "why_tests_cant": "All interleavings of writes and reads around the wrap.", "anchors": ["src/utils/mtev_log.c:mtev_log_memory_lines_since", "src/utils/mtev_log.c:membuf_logio_writev"]}
{"id": "C138", "title": "Committing a speculation logs its lines", "statement": "mtev_log_speculate_finish with a log stream logs every line written to the speculation, in order, if the speculation is large enough for them.", "quantifier": "all sequences of lines, all sizes", "why_tests_cant": "All numbers and lengths of lines.", "anchors": ["src/utils/mtev_log.c:mtev_log_speculate", "src/utils/mtev_log.c:mtev_log_speculate_finish", "src/utils/mtev_log.c:mtev_log_memory_lines"]}
{"id": "C139", "title": "A line that fits in a memory log is logged", "statement": "Every write of a line that, with its time, is no longer than the segment is accepted.", "quantifier": "all sequences of lines", "why_tests_cant": "Depends on the whole history of line lengths; once stuck, the log stays so.", "anchors": ["src/utils/mtev_log.c:membuf_logio_writev"]}
{"id": "C140", "title": "A memory log writes only to its memory", "statement": "Whatever is logged, the copy stays in the segment, and a write is answered either 0 or the number of bytes of the line.", "quantifier": "all sequences of lines of any length, all states", "why_tests_cant": "All histories.", "anchors": ["src/utils/mtev_log.c:membuf_logio_writev"]}
{"id": "C141", "title": "string.unpack gives back what string.pack packed", "statement": "Unpacking packed bytes with the same format gives the values packed (integers truncated, floats rounded) and the position after them, wherever the bytes lie in the data; strings of every length that their length prefix can hold included.", "quantifier": "all formats, values, byte orders, hosts and surrounding data", "why_tests_cant": "Formats, values and lengths combine without bound; the failing strings start at 32768 bytes.", "anchors": ["src/modules/lua_lpack.c:l_pack", "src/modules/lua_lpack.c:l_unpack"]}
{"id": "C142", "title": "string.unpack reads only the data", "statement": "Whatever bytes are unpacked by a format of known codes from a position in the data, no byte outside of the data is read.", "quantifier": "all data, formats and start positions", "why_tests_cant": "Lengths come from the data, which may be hostile.", "anchors": ["src/modules/lua_lpack.c:l_unpack"]}
{"id": "C143", "title": "string.unpack of cut data gives the complete values", "statement": "If the data ends within an item, unpack gives the values before it and the position at which the item begins, so that a caller can go on when the rest has come.", "quantifier": "all formats, values and places to cut (within a z string excepted: it is taken as ended)", "why_tests_cant": "Every item can be cut at every byte.", "anchors": ["src/modules/lua_lpack.c:l_unpack"]}
{"id": "C144", "title": "Packed integers have the byte order asked for", "statement": "After > an integer is packed most significant byte first in two's complement of its size, after < least significant first, on any host, and unpacked alike.", "quantifier": "all integer codes, all values in range, both kinds of host", "why_tests_cant": "A host has one byte order; tests run on one.", "anchors": ["src/modules/lua_lpack.c:doendian", "src/modules/lua_lpack.c:doswap", "src/modules/lua_lpack.c:l_pack", "src/modules/lua_lpack.c:l_unpack"]}
{"id": "C145", "title": "A count in a format is a repetition", "statement": "A format with counts packs and unpacks as the one with its codes written out (A excepted when unpacking, whose count is a length).", "quantifier": "all formats, arguments and data", "why_tests_cant": "All formats.", "anchors": ["src/modules/lua_lpack.c:l_pack", "src/modules/lua_lpack.c:l_unpack"]}
{"id": "C146", "title": "Unknown codes and missing arguments are Lua errors", "statement": "A code that is not defined makes pack and unpack raise an error once it is reached; so does a code for which no argument is left.", "quantifier": "all formats, values and data", "why_tests_cant": "All prefixes of a format.", "anchors": ["src/modules/lua_lpack.c:badcode", "src/modules/lua_lpack.c:l_pack", "src/modules/lua_lpack.c:l_unpack"]}
{"id": "C147", "title": "A line is written once for every way to a writer", "statement": "After any sequence of calls that build the graph of log streams, a line logged to a stream is given exactly once for each path of enabled streams and passing outlets to a stream that writes, and to no other; deciding early that a line is not needed never loses one.", "quantifier": "all histories of find, new, add, add filtered, remove, removeall, set_flags, set_format and register (new_on_fd and final_resolve: see C148), all lines and streams", "why_tests_cant": "Paths grow exponentially with the graph; materialisation is cached over histories of changes.", "anchors": ["src/utils/mtev_log.c:materialize_deps", "src/utils/mtev_log.c:rematerialize_log_streams", "src/utils/mtev_log.c:mtev_log_construction_needed", "src/utils/mtev_log.c:mtev_log_line", "src/utils/mtev_log.c:mtev_ex_vlog"]}
{"id": "C148", "title": "A stream that writes gets lines as soon as it is there", "statement": "Whatever calls were made, a line for which there is a path to a stream that writes is given to it.", "quantifier": "all histories including new_on_fd and final_resolve", "why_tests_cant": "The lines are lost only until any other change of the graph.", "anchors": ["src/utils/mtev_log.c:mtev_log_stream_new_on_fd", "src/utils/mtev_log.c:mtev_log_final_resolve", "src/utils/mtev_log.c:rematerialize_log_streams"]}
{"id": "C149", "title": "Calls that connect streams return", "statement": "mtev_log_stream_add_stream returns for every two streams; no loop is left behind.", "quantifier": "all graphs reached, all pairs of streams, stacks of any depth", "why_tests_cant": "Loops of every length; no bound on the depth decides it.", "anchors": ["src/utils/mtev_log.c:mtev_log_stream_add_stream", "src/utils/mtev_log.c:materialize_deps"]}
{"id": "C150", "title": "mtev_log_stream_find makes a stream below its parent", "statement": "Finding a known name changes nothing; an unknown name a/b/c is made, enabled, not writing, with a/b as its only outlet, which is made in the same way if need be; other streams stay as they are. mtev_log_stream_new makes the stream anew, without outlets.", "quantifier": "all graphs reached, all names", "why_tests_cant": "Names nest without bound.", "anchors": ["src/utils/mtev_log.c:mtev_log_stream_find", "src/utils/mtev_log.c:mtev_log_stream_new_internal", "src/utils/mtev_log.c:mtev_log_stream_new"]}
{"id": "C151", "title": "Prefixes asked for on the way are written", "statement": "A timestamp, facility or debug prefix asked for by a stream through which a line goes is put in front of the text by the writer; the facility is the stream logged to.", "quantifier": "all graphs reached, all paths and lines", "why_tests_cant": "Needs paths of three streams and all positions of the flag.", "anchors": ["src/utils/mtev_log.c:mtev_log_line"]}
{"id": "C152", "title": "Splitting streams write one line at a time", "statement": "A writer with the split flag gets the message cut at newlines, each piece ending in exactly one newline, a missing last one added, nothing else changed; without it the message is given as it is; an empty message gives nothing.", "quantifier": "all messages", "why_tests_cant": "All messages.", "anchors": ["src/utils/mtev_log.c:mtev_log_line"]}
{"id": "C153", "title": "Parts are written in one piece", "statement": "Streams without writevop are given the parts one after the other in a single write, in a signal handler too.", "quantifier": "all vectors, inside and outside of signal handlers", "why_tests_cant": "Fails only beyond 16 kB in a handler.", "anchors": ["src/utils/mtev_log.c:mtev_log_writev"]}
{"id": "C154", "title": "Each call on log streams changes only what it names", "statement": "Adding an outlet adds that one (nothing if it is there), removing takes away exactly the outlets to streams of that name, removeall all, set_flags and set_format change just that; registering a type keeps the others; final_resolve makes the streams of known types write; a stream that cannot be opened, and stderr, are left as mtev_log_stream_find leaves them. No other stream and no other part of the stream changes.", "quantifier": "all graphs reached, all arguments", "why_tests_cant": "Says what does not change, for all graphs.", "anchors": ["src/utils/mtev_log.c:mtev_log_stream_add_stream", "src/utils/mtev_log.c:mtev_log_stream_add_stream_filtered", "src/utils/mtev_log.c:mtev_log_stream_remove_stream", "src/utils/mtev_log.c:mtev_log_stream_removeall_streams", "src/utils/mtev_log.c:mtev_log_stream_set_flags", "src/utils/mtev_log.c:mtev_log_stream_set_format", "src/utils/mtev_log.c:mtev_register_logops", "src/utils/mtev_log.c:mtev_log_final_resolve", "src/utils/mtev_log.c:mtev_log_stream_new"]}
{"id": "C155", "title": "A timer never runs before its time", "statement": "Whenever the callback of a timed event is run, the clock reading given to it is later than the time the event was last set to.", "quantifier": "all histories of allocations, adds, removes, updates and frees, outside of and within callbacks, all dispatches and clocks", "why_tests_cant": "Depends on the state of two queues over histories of calls made from within callbacks.", "anchors": ["src/eventer/eventer_impl.c:eventer_dispatch_timed", "src/eventer/eventer_impl.c:eventer_update_timed_internal"]}
{"id": "C156", "title": "A timer runs once for each time it is added", "statement": "A timed event is run only if it was added and since then neither run nor removed; eventer_remove tells whether it was waiting; an event that waits is never freed by the loop; each call succeeds exactly when the history allows it.", "quantifier": "all histories of a client that adds no event that is waiting or running", "why_tests_cant": "All interleavings of calls and callbacks.", "anchors": ["src/eventer/eventer_impl.c:eventer_add_timed", "src/eventer/eventer_impl.c:eventer_remove_timed", "src/eventer/eventer_impl.c:eventer_dispatch_timed"]}
{"id": "C157", "title": "Timers run in the order of their times", "statement": "When an event runs, every other event that waits since before the last dispatch is set to a later time, or to the same time and was queued later.", "quantifier": "all histories of a client that adds no event that is waiting or running", "why_tests_cant": "Order over queues of any length that are changed by callbacks.", "anchors": ["src/eventer/eventer_impl.c:eventer_timecompare", "src/eventer/eventer_impl.c:eventer_dispatch_timed", "src/utils/mtev_skiplist.c:mtev_skiplist_insert_compare"]}
{"id": "C158", "title": "A dispatch serves every timer that is due, each at most once, and ends", "statement": "A dispatch runs each event that was queued before the last one at most once, and leaves none, unless touched by a callback, that is due at its last clock reading; a callback's result decides whether its event is queued again or freed; it never aborts by itself.", "quantifier": "all histories, clocks and callbacks", "why_tests_cant": "Callbacks may add events without end; no bound on the number of events.", "anchors": ["src/eventer/eventer_impl.c:eventer_dispatch_timed"]}
{"id": "C159", "title": "The loop sleeps no longer than until the next timer", "statement": "After a dispatch the time to sleep is at most the time until the earliest waiting event, at most the configured maximum, and at most what the loop was going to sleep.", "quantifier": "all histories, clocks and callbacks", "why_tests_cant": "Fails only if callbacks take time, or a watchdog asks for shorter sleeps.", "anchors": ["src/eventer/eventer_impl.c:eventer_dispatch_timed", "src/eventer/eventer_epoll_impl.c:eventer_epoll_impl_loop"]}
{"id": "C160", "title": "Time values are added, subtracted and compared exactly", "statement": "sub_timeval and add_timeval are exact in microseconds; a difference has a negative field exactly if it is negative; compare_timeval and eventer_timecompare order by time.", "quantifier": "all time values", "why_tests_cant": "All pairs of 64 bit numbers.", "anchors": ["src/mtev_defines.h:sub_timeval", "src/mtev_defines.h:add_timeval", "src/mtev_defines.h:compare_timeval", "src/eventer/eventer_impl.c:eventer_timecompare"]}
{"id": "C161", "title": "A new time for an event changes when it runs, not whether", "statement": "eventer_update_whence sets the time of a timer and leaves it waiting or not waiting as it was.", "quantifier": "all histories and times", "why_tests_cant": "Depends on whether the event is queued, which no call tells.", "anchors": ["src/eventer/eventer.c:eventer_update_whence", "src/eventer/eventer_impl.c:eventer_update_timed_internal"]}
{"id": "C162", "title": "A reverse socket sends the frames it owes, whole and in order", "statement": "What is written to the shared connection is at every moment a beginning of the encodings, in order, of: one CONNECT for each connection opened here, the bytes read from each local connection on its channel, one SHUTDOWN for each that ended here, and one RESET for each frame on a free channel other than a RESET or a granted CONNECT; each of these frames is within the limits; and whenever the peer takes a byte, one is written if any is due.", "quantifier": "all histories of calls, all patterns of partial writes and EAGAIN", "why_tests_cant": "Partial writes can fall on every byte of every frame.", "anchors": ["src/mtev_reverse_socket.cpp:mtev_reverse_socket_handler", "src/mtev_reverse_socket.cpp:append_out", "src/mtev_reverse_socket.cpp:command_out"]}
{"id": "C163", "title": "Frames are read the same however the bytes arrive", "statement": "The frames acted on are exactly those the bytes received encode, whatever the pieces they came in, and no whole frame is left waiting.", "quantifier": "all histories of calls and all ways to cut the input", "why_tests_cant": "The number of ways to cut a stream is exponential.", "anchors": ["src/mtev_reverse_socket.cpp:mtev_reverse_socket_handler"]}
{"id": "C164", "title": "A frame beyond the limits, or an error, ends everything; nothing else does", "statement": "A header with a length above 65530 or a channel above 511 brings the shared connection down without any later frame being acted on, as does a failed read or write, and nothing else; then every local connection is closed and no call has any effect.", "quantifier": "all histories of calls and inputs", "why_tests_cant": "A hostile peer may send any bytes.", "anchors": ["src/mtev_reverse_socket.cpp:mtev_reverse_socket_handler", "src/mtev_reverse_socket.cpp:mtev_reverse_socket_shutdown"]}
{"id": "C165", "title": "A local connection is given the data of its channel, once and in order", "statement": "What is written to a local connection is a beginning of the payloads of the data frames that came on its channel while it had it, up to the first frame that is not data; whenever it takes a byte, one is written if any is due.", "quantifier": "all histories of calls, any number of channels in any order, all partial writes", "why_tests_cant": "Interleavings of 512 channels with partial writes.", "anchors": ["src/mtev_reverse_socket.cpp:mtev_reverse_socket_channel_handler", "src/mtev_reverse_socket.cpp:append_in"]}
{"id": "C166", "title": "Two ends agree on the frames", "statement": "If one end has received a beginning of what the other has written, the frames it acted on are the first of those the other owes; if it received all of them, they are the same.", "quantifier": "all histories of calls at both ends", "why_tests_cant": "Combines all partial writes at one end with all partial reads at the other.", "anchors": ["src/mtev_reverse_socket.cpp:mtev_reverse_socket_handler"]}
{"id": "C167", "title": "Connections are opened and closed only for a reason", "statement": "A connection is opened for the peer exactly on a CONNECT on a free channel when the target can be reached; it is closed without a word only at a RESET or CLOSE, with a SHUTDOWN only at the end of its local side or at another command or an empty frame, all data before it having been given; or when the shared connection fails.", "quantifier": "all histories of calls", "why_tests_cant": "Depends on the order of events on all channels.", "anchors": ["src/mtev_reverse_socket.cpp:mtev_reverse_socket_channel_handler", "src/mtev_reverse_socket.cpp:mtev_reverse_socket_channel_shutdown", "src/mtev_reverse_socket.cpp:mtev_reverse_socket_handler"]}
{"id": "C168", "title": "A new connection gets a channel of its own", "statement": "mtev_reverse_socket_connect gives the new connection a channel no connection has, and fails only if all 512 are taken or no descriptors can be made.", "quantifier": "all histories of calls", "why_tests_cant": "Needs all sets of channels in use and all starting points of the search.", "anchors": ["src/mtev_reverse_socket.cpp:mtev_reverse_socket_connect"]}
{"id": "C169", "title": "A connection is given nothing meant for another", "statement": "A connection opened by mtev_reverse_socket_connect is given no byte before its CONNECT was sent.", "quantifier": "all histories of calls", "why_tests_cant": "Shows only if a channel is used again while frames of its last connection are on their way.", "anchors": ["src/mtev_reverse_socket.cpp:mtev_reverse_socket_connect", "src/mtev_reverse_socket.cpp:mtev_reverse_socket_channel_shutdown"]}
{"id": "C170", "title": "One call acts on a bounded number of frames", "statement": "One call of the handler of the shared connection acts on at most a fixed number of frames.", "quantifier": "all histories of calls and inputs", "why_tests_cant": "Needs a peer that sends without end.", "anchors": ["src/mtev_reverse_socket.cpp:mtev_reverse_socket_handler"]}
{"id": "C171", "title": "What came for a connection is given to it before it is closed", "statement": "When a local connection is closed, all data that had come for it before the reason to close was given to it.", "quantifier": "all histories of calls, all partial writes", "why_tests_cant": "Needs a local connection that stops sending while it is slow to read.", "anchors": ["src/mtev_reverse_socket.cpp:mtev_reverse_socket_channel_handler"]}
{"id": "C172", "title": "The protocols advertised are those of the configuration that are registered", "statement": "eventer_ssl_alpn_advertise keeps, in order, the names between commas that are registered, as far as they fit in 254 bytes and all of them if they do, within the buffer it allocated; if there are none, no protocol is ever chosen. A name registered on the context comes before one registered for the process, and the last registration counts.", "quantifier": "all tables of functions and all strings", "why_tests_cant": "All strings, with empty parts, long names and names that do not fit.", "anchors": ["src/eventer/eventer_SSL_fd_opset.c:eventer_ssl_alpn_advertise", "src/eventer/eventer_SSL_fd_opset.c:eventer_ssl_alpn_register", "src/eventer/eventer_SSL_fd_opset.c:eventer_ssl_ctx_alpn_register"]}
{"id": "C173", "title": "Only a protocol the client offers is chosen", "statement": "alpn_select_proto_cb asks the functions of the names offered in the order they are offered and ends with the first that does not pass; if these choose among what is offered, as those of the library do, what is chosen is a name of the offer, whole.", "quantifier": "all tables of functions and all lists of names a client can offer", "why_tests_cant": "The list comes from the peer; a wrong step reads outside of a name.", "anchors": ["src/eventer/eventer_SSL_fd_opset.c:alpn_select_proto_cb", "src/eventer/eventer_SSL_fd_opset.c:eventer_alpn_select_always", "src/eventer/eventer_SSL_fd_opset.h:EVENTER_SSL_ALPN_MATCHER"]}
{"id": "C174", "title": "Only a protocol the server has is chosen", "statement": "With the functions of the library, the name chosen is registered and was advertised.", "quantifier": "all tables made of these functions, all configurations, all offers", "why_tests_cant": "Shows only for offers with names the server does not know.", "anchors": ["src/eventer/eventer_SSL_fd_opset.c:alpn_select_proto_cb", "src/eventer/eventer_SSL_fd_opset.c:eventer_alpn_select_always", "src/eventer/eventer_SSL_fd_opset.h:EVENTER_SSL_ALPN_MATCHER"]}
{"id": "C175", "title": "A client that offers one protocol the server has gets it", "statement": "A client that offers a single name, which is advertised and has a matcher made for it, gets that name.", "quantifier": "all names", "why_tests_cant": "Needs all names and all offers.", "anchors": ["src/eventer/eventer_SSL_fd_opset.h:EVENTER_SSL_ALPN_MATCHER", "src/eventer/eventer_SSL_fd_opset.c:alpn_select_proto_cb"]}
{"id": "C176", "title": "NPN offers every protocol advertised", "statement": "next_proto_cb gives the client all the names advertised.", "quantifier": "all tables of functions and all strings", "why_tests_cant": "Depends on the number of names advertised.", "anchors": ["src/eventer/eventer_SSL_fd_opset.c:next_proto_cb"]}
{"id": "C177", "title": "When mkdir_for_file answers 0, the directory of the file is there", "statement": "If mkdir_for_file answers 0, everything before the last slash of the file's name is a directory.", "quantifier": "all file systems, current directories, permissions and names, with any slashes in a row", "why_tests_cant": "All file systems and names.", "anchors": ["src/utils/mtev_mkdir.c:mkdir_for_file"]}
{"id": "C178", "title": "mkdir_for_file makes only the directories on the way", "statement": "Whatever it answers, mkdir_for_file changes nothing that was there and makes only directories, all of them on the way to the directory of the file; for a name without a directory it changes nothing.", "quantifier": "all file systems, permissions and names, whether it succeeds or fails on the way", "why_tests_cant": "Must hold for every place it can fail.", "anchors": ["src/utils/mtev_mkdir.c:mkdir_for_file"]}
{"id": "C179", "title": "mkdir_for_file answers 0 if there is nothing to do", "statement": "If the directory a file is to be in is there, mkdir_for_file answers 0; it also does if it can make it.", "quantifier": "all file systems and names", "why_tests_cant": "All names, with any slashes.", "anchors": ["src/utils/mtev_mkdir.c:mkdir_for_file"]}
{"id": "C180", "title": "mkdir_for_file keeps to its buffer", "statement": "No name makes mkdir_for_file read or write outside of its buffer.", "quantifier": "all names", "why_tests_cant": "Names of any length.", "anchors": ["src/utils/mtev_mkdir.c:mkdir_for_file"]}
{"id": "C181", "title": "bit.tobit, bnot, band, bor and bxor work bit by bit", "statement": "Each answers a signed number of 32 bits; each of its bits is the operation on that bit of all the arguments, taken modulo 2^32.", "quantifier": "all integers from -2^51 to 2^51, any number of arguments", "why_tests_cant": "2^52 numbers and any number of them.", "anchors": ["src/modules/lua_bit.c:bit_tobit", "src/modules/lua_bit.c:bit_bnot", "src/modules/lua_bit.c:bit_band", "src/modules/lua_bit.c:bit_bor", "src/modules/lua_bit.c:bit_bxor"]}
{"id": "C182", "title": "The bit library raises an error for what is no number", "statement": "A missing argument, or one that is no number, is an error in every function, wherever it stands.", "quantifier": "all argument lists", "why_tests_cant": "Any place in lists of any length.", "anchors": ["src/modules/lua_bit.c:barg"]}
{"id": "C183", "title": "bit.lshift, rshift and arshift", "statement": "The bits move by the low five bits of the count; zeros come in, for arshift the sign.", "quantifier": "all integers from -2^51 to 2^51 and all counts", "why_tests_cant": "2^52 numbers times as many counts.", "anchors": ["src/modules/lua_bit.c:bit_lshift", "src/modules/lua_bit.c:bit_rshift", "src/modules/lua_bit.c:bit_arshift"]}
{"id": "C184", "title": "bit.rol and ror", "statement": "The bits go round by the low five bits of the count, and none is lost.", "quantifier": "all integers from -2^51 to 2^51 and all counts", "why_tests_cant": "2^52 numbers times as many counts; and what is undefined in C may look right in a test.", "anchors": ["src/modules/lua_bit.c:bit_rol", "src/modules/lua_bit.c:bit_ror"]}
{"id": "C185", "title": "bit.bswap turns the bytes round", "statement": "Byte i of the answer is byte 3 - i of the number; and bswap of bswap of a number is tobit of it.", "quantifier": "all integers from -2^51 to 2^51", "why_tests_cant": "2^52 numbers.", "anchors": ["src/modules/lua_bit.c:bit_bswap"]}
{"id": "C186", "title": "bit.tohex gives the digits asked for", "statement": "With a count n, read as a signed number of 32 bits, the answer is the lowest min(8, |n|) hexadecimal digits of the number, in capitals if n is negative; without, it is all eight.", "quantifier": "all integers from -2^51 to 2^51 and all counts", "why_tests_cant": "2^52 numbers times as many counts.", "anchors": ["src/modules/lua_bit.c:bit_tohex"]}
{"id": "C187", "title": "A lock file has one owner", "statement": "No two processes own the lock of a file at once; a process owns it from the call that answered a descriptor until it closes a descriptor of that file or ends.", "quantifier": "all runs of any processes and files, with any interruptions and failures of open and fcntl", "why_tests_cant": "All interleavings of any number of processes.", "anchors": ["src/utils/mtev_lockfile.c:mtev_lockfile_acquire", "src/utils/mtev_lockfile.c:mtev_lockfile_acquire_owner", "src/utils/mtev_lockfile.c:mtev_lockfile_release"]}
{"id": "C188", "title": "A lock is kept until its descriptor is released", "statement": "While a process has not released the descriptor it was given, and has not ended, no other process is given the lock.", "quantifier": "all runs of any processes and files", "why_tests_cant": "All interleavings; the case that fails needs two users of one lock in one process.", "anchors": ["src/utils/mtev_lockfile.c:mtev_lockfile_acquire", "src/utils/mtev_lockfile.c:mtev_lockfile_release"]}
{"id": "C189", "title": "What mtev_lockfile_acquire and release answer", "statement": "acquire answers a descriptor if no other process owns the lock and open and fcntl work, however often it is interrupted; it answers -1 if another does, and then leaves no descriptor open and no lock changed. release gives up the lock of that process alone, and answers 0 if fcntl works.", "quantifier": "all runs before the call", "why_tests_cant": "All states that any processes can bring about.", "anchors": ["src/utils/mtev_lockfile.c:mtev_lockfile_acquire", "src/utils/mtev_lockfile.c:mtev_lockfile_release"]}
{"id": "C190", "title": "mtev_lockfile_acquire_owner names the owner", "statement": "If the lock cannot be had because another process owns it, *owner is that process.", "quantifier": "all runs before the call, and whatever other processes do during it", "why_tests_cant": "The window between two system calls.", "anchors": ["src/utils/mtev_lockfile.c:mtev_lockfile_acquire_owner"]}
