# Formal model of libmtev: design

## Layout

* `properties.jsonl` - the properties, in terms of the public API and observable effects.
* `rocq/theories/<Module>/Model.v` - executable Gallina model of the C code; every definition cites the
  file and lines it models.  No proofs.
* `rocq/theories/<Module>/Spec.v` - small separate specification.
* `rocq/theories/<Module>/Proofs.v` - lemmas.
* `rocq/theories/<Module>/Props.v` - the property theorems only, each closed by `exact lemma`, with an
  `Example` showing that its hypotheses are met by a concrete case, and `Print Assumptions` beneath.
* `MANIFEST.json` - property -> status, theorem names, note.
* `seeded/LOG.jsonl` - mutation tests of the theorems, done in a scratch copy: the definition edited, the edit,
  the claim it breaks, the theorems that failed.

## Trusted base

* Coq 8.16.1's kernel (including `vm_compute`, used in examples and a few finite sweeps; `coqchk` re-checks all files).
* `Print Assumptions` prints "Closed under the global context" for every property theorem: no axioms, neither our own
  nor the standard library's.  (`coqchk` lists the opaque constants of `Coq.ssr.ssrunder`, a module type instance the
  standard library loads; no theorem depends on them.)
* The reading of the C text: that each Gallina definition says what the cited lines do.  The mutation log is the
  evidence that the theorems depend on it.
* Contracts of external code, taken as parameters or stated in the module list below: malloc succeeds, libc's
  functions, ck_hs (hash set), pthread mutexes and condition variables, hash functions (arbitrary functions), qsort,
  mmap, the kernel's read and write.
* Memory model: sequential consistency for the concurrent modules.

## Conventions

* Bytes are `N` below 256 (or `Z` where signed arithmetic matters); buffers are lists.  A C function that
  writes through a pointer becomes a function returning the list of stores (or the new contents), so that
  "writes stay inside the buffer" is a statement about the model's output, not an assumption.
* Undefined behaviour (out-of-bounds store or load, NULL dereference, uninitialised read, failed assertion)
  is a distinct outcome; theorems either prove it unreachable or give the witness that reaches it.
* Lengths are unbounded naturals unless the property is about wrap-around, in which case the wrap is explicit.
* Concurrency is a small-step relation whose steps are the individual atomic operations of the C code (loads,
  compare-and-swap, critical sections), with any number of calls in progress.
* When the code violates a property, the property keeps its natural statement and the status `partial`; a theorem named
  `..._refuted` gives the witness, and what does hold is proved beside it under the exact guard needed
  (`..._partial`).

## Modules: what is modelled, what is not, what was found

### B32 (C01 C02)

* Source: src/utils/mtev_b32.c (whole file)
* Modelled: Encoder and decoder as functions returning the stores through the destination pointer and the return value.
* Simplified / not modelled: Nothing left out.
* Finding: The decoder's size check rounds down, so some accepted destinations are overrun (C02_b32_decode_in_bounds_refuted; exact safe sizes in C02_b32_decode_safe_sizes).

### B64 (C03 C04 C43)

* Source: src/utils/mtev_b64.c; src/aklomp-base64/lib/arch/generic/{enc,dec}_{head,tail}.c, lib.c
* Modelled: Streaming state machine with carry; iovec encoder as a fold; fast path and slow path of the decoder.
* Simplified / not modelled: The wide loops (32/64-bit words, SSE/AVX/NEON) and the OpenMP build are not modelled; the tail code handles the whole input.
* Finding: A text ending in `A=` emits a byte computed from an uninitialised temporary (C43 refuted, exact condition proved).

### Url (C05 C06 C07)

* Source: src/utils/mtev_url.c (whole file)
* Modelled: Memory as a function from addresses to bytes, so source and destination may overlap; runs yield memory, return value, stored addresses.
* Simplified / not modelled: src_len * 3 does not wrap.
* Finding: A destination of exactly 3n is accepted and the terminator lands one past it.
* Finding: In-place encoding moves the source before the start of the buffer in some sizes.
* Finding: mtev_html_encode_len is one byte short.

### Uuid (C08)

* Source: src/utils/mtev_uuid_parse.c (whole file)
* Modelled: Parsers and printers over readable bytes.
* Simplified / not modelled: isxdigit in the C locale.

### Sort (C09 C10)

* Source: src/utils/mtev_sort.c (whole file)
* Modelled: Heap of next pointers, all loops of the bottom-up merge sort.
* Simplified / not modelled: Comparison is a total preorder; list_size (int) overflows beyond 2^30 nodes, excluded.
* Finding: Documented stability is false: ties come out exactly reversed.

### Kmp (C11 C44)

* Source: src/utils/mtev_str.c (kmp_precompute, kmp_search, strnstrn)
* Modelled: Failure table and scan with bounds checks on every access.
* Finding: The table builder reads pattern[len]; a 256-byte needle overruns the table; longer needles abort.

### Str (C12 C45 C46)

* Source: src/utils/mtev_str.c (prepend/append buffers, strlcpy, strlcat, strndup fallbacks)
* Modelled: Allocations as byte lists, access outside yields an error.
* Simplified / not modelled: Total lengths below about 2^31/3 (int sizes overflow beyond).
* Finding: mtev_str_buff_to_string leaves the string unterminated when it exactly fills the allocation.
* Finding: strlcpy with size 0 stores a byte.

### Lru (C13 C47 C48)

* Source: src/utils/mtev_lru.c (whole file)
* Modelled: Hash set as finite map, queue, reference-counted entries in a heap with use-after-free detection.
* Simplified / not modelled: Calls are sequential (they hold the mutex); ck_hs by contract; the read of r->entry after unlock in get is a race that is not modelled.
* Finding: An overwriting put does not decrement the size: each overwrite loses a slot until invalidate, then NULL dereference.
* Finding: Unlimited mode: overwrite unlinks an entry that is not linked; invalidate leaks.
* Finding: remove calls free_fn(NULL) on the last release.

### Lfu (C14 C49 C50)

* Source: src/utils/mtev_lfu.c (whole file)
* Modelled: As Lru, plus frequency buckets with identity.
* Simplified / not modelled: Frequencies do not wrap.
* Finding: touch leaks an emptied bucket when the next frequency exists.
* Finding: Unlimited mode uses an unset list head on overwrite, leaks on invalidate.
* Finding: max 0: get leaves *value untouched.

### Btrie (C15 C51 C52 C53)

* Source: src/utils/mtev_btrie.c (whole file)
* Modelled: Trie nodes as values, slots as positions; uninitialised words of IPv4 addresses are arbitrary.
* Simplified / not modelled: Nodes are values rather than heap cells.
* Finding: Deleting the only route (or a prefix at the root with fewer than two children) dereferences NULL.
* Finding: 129 nested prefixes overrun pstack[128].
* Finding: Overwriting a route forgets the old data without calling f.
* Finding: IPv4 and IPv6 routes share one key space (REST ACLs use it).

### Confstr (C20 C21 C22 C54)

* Source: src/utils/mtev_confstr.c (whole file)
* Modelled: Character-level parsers; timegm arithmetic over Z.
* Simplified / not modelled: strptime is a parameter; ctype in the C locale.
* Finding: The leap rule is applied to tm_year, so 2000-02-29 is refused and 2300-02-29 accepted.
* Finding: Duration sums wrap modulo 2^64.

### Flow (C16 C17 C55)

* Source: src/utils/mtev_flow_regulator.c (whole file)
* Modelled: Transition system, one step per atomic access, any number of calls.
* Simplified / not modelled: Sequential consistency; memory orderings weaker than that are not modelled.
* Finding: The stable_ calls lose a wake-up with two producers.

### Hooks (C18 C19)

* Source: src/utils/mtev_hooks.h (code generated by MTEV_HOOK_IMPL)
* Modelled: Registration as interleaved accesses to the head pointer; invoke as a fold.
* Simplified / not modelled: Sequential consistency.
* Finding: The CAS re-reads the head as its expected value, so concurrent registrations can be lost.

### Cht (C23 C24 C56 C57)

* Source: src/utils/mtev_cht.c (construction, lookup)
* Modelled: Ring building loop, sort, collision repair, lookups.
* Simplified / not modelled: Hash function and qsort are parameters with their contract; userdata and release of replaced nodes not modelled; owned is an exact fraction, not a double.
* Finding: Three points colliding at the start of the ring leave it unsorted, shares underflow, a node becomes unreachable.
* Finding: vlookup_n with w > node_cnt returns node_cnt+1 entries.
* Finding: nbits 31 shifts 1 into the sign bit.
* Finding: node_idx is an unsigned short: more than 65536 nodes wrap.

### Dynbuf (C25 C58 C59)

* Source: src/utils/mtev_dyn_buffer.c, .h (all but the yajl encoder)
* Modelled: Static and heap storage as byte lists with never-written bytes.
* Simplified / not modelled: malloc and realloc succeed; vsnprintf is a parameter.
* Finding: vsnprintf returning -1 moves the write position back one byte (before the buffer when empty).
* Finding: add_printf aborts when 2 GiB or more are free.
* Finding: Moving to the heap copies the used bytes only, not a terminator.

### Tok (C26 C60)

* Source: src/mtev_tokenizer.re and the generated src/mtev_tokenizer.c
* Modelled: Scanner automaton and token builder over positions.
* Simplified / not modelled: malloc succeeds.
* Finding: An unterminated single quote with text, or a double quote ending in a lone backslash, is treated as end of line.
* Finding: The error offset is always -(len+1).
* Finding: `\0` stores a NUL inside the token.
* Finding: Tokens beyond *cnt are leaked.

### Jobq (C31 C32 C61 C62)

* Source: src/eventer/eventer_jobq.c (enqueue, try_enqueue, dequeue, completion)
* Modelled: Transition system of critical sections.
* Simplified / not modelled: Circular list as list, subqueue hash as search, subqueue_count and 2^32-1 workers do not wrap, concurrency constant during one scan; threads, timeouts, cancellation, completion queue, shutdown not modelled.
* Finding: Switching LIFO off while jobs wait drops all waiting jobs.
* Finding: Plain enqueue bypasses max_backlog.

### Ipool (C28 C63)

* Source: src/utils/mtev_intern.c (pool_find, pool_extend, compaction, staging)
* Modelled: Free fragments by level; counting argument for the partition of memory.
* Simplified / not modelled: Whole calls in sequence; free-node records are values; mmap grants disjoint aligned extents; backing files and extent_size 0 not modelled; counters do not wrap.
* Finding: A merged fragment of k*4 GiB indexes before the level table.
* Finding: An extent size that is not a power of two can make pool_find map extents for ever.
* Finding: Items larger than the extent abort although documented up to 2^23-1.

### Intern (C27 C64)

* Source: src/utils/mtev_intern.c (intern, copy, release)
* Modelled: Transition system with reference counts and memory that may be reused.
* Simplified / not modelled: Locks by contract, sequential consistency, fewer than 2^32-2 references.
* Finding: mtev_intern_str(buff, len) also compares the byte after the string.
* Finding: Strings and data share entries; the length reported depends on who came first.
* Finding: Lookups longer than 2^23 match a prefix.
* Finding: mtev_intern_get_ptr is declared but not defined.

### Sem (C41)

* Source: src/utils/mtev_sem.c (built when WORKING_SEM_INIT is undefined)
* Modelled: Mutex/condition steps, spurious wake-ups included.
* Simplified / not modelled: getvalue not modelled.
* Finding: An initial value of -1 becomes 2^32-1 and wraps on the next post.

### Hll (C35 C65)

* Source: src/utils/mtev_hyperloglog.c (whole file)
* Modelled: Registers, rank, sum; floating point tail as a parameter.
* Simplified / not modelled: XXH64 is an arbitrary function; floating point not modelled.
* Finding: With precision 4 to 8 the integer sum can become 0 and the estimate divides by it.

### Frrh (C34 C66 C67)

* Source: src/utils/mtev_frrh.c, .h (whole files)
* Modelled: Transition system, one step per atomic access; allocator chooses any free address (ABA included); two kinds of freef.
* Simplified / not modelled: Sequential consistency; counters are incremented together with the access they count; size 0 (division by zero) not considered.
* Finding: With the default freef a concurrent get reads freed memory.
* Finding: freef is called with NULL when an empty place is filled.
* Finding: Allocators with less than 8-byte alignment make the data overrun the block.
* Finding: Setting an existing key may be refused, leaving the older value.

### Hash (C33 C68)

* Source: src/utils/mtev_hash.c (whole file but locking, init variants, destroy)
* Modelled: Elements as heap cells with length-prefixed key bytes, caller memory as bytes per pointer, frees logged.
* Simplified / not modelled: ck_hs (not in the repository) is its contract: a set of elements with hash values, any iteration order; XXH64 is an arbitrary function; sequential calls; allocation succeeds; 0 <= klen < 2^31.
* Finding: merge_as_dict reads past the strdup'ed copy when the source key holds a NUL before its last byte.

### Skip (C29)

* Source: src/utils/mtev_skiplist.c (lists without further indexes: insert, find, find_neighbors, next, previous, remove, pop, peek, size, remove_all)
* Modelled: Nodes as heap cells with all four pointers; representation as columns; any coin tosses.
* Simplified / not modelled: Indexes (add_index, previndex/nextindex) not modelled; comparators are parameters forming an order; calloc succeeds.
* Finding: Bit 31 of the coin source is tested by 1<<31 sign-extended, so that toss also sees the upper 32 bits.
* Finding: A refused duplicate insert may leave empty top rows.
* Finding: When a key comparator matches several elements, the one found depends on the coin tosses (C29_ambiguous_key).
* Finding: add_index with two or more indexes walks the wrong list; remove_compare looks indexes up by comp although comparek was passed; remove_all does not clear the indexes (read, not modelled).

### Logic (C30 C69 C70 C71 C72)

* Source: src/utils/mtev_logic.c, src/utils/mtev-logic.leg and the generated src/utils/mtev-logic-leg.c
* Modelled: Evaluator over variables as memory; the PEG parser rule by rule with the count of characters read, which is what decides success.
* Simplified / not modelled: Doubles, strtod, %g and PCRE are parameters; strtoll is written out; allocation succeeds; parser actions applied directly instead of deferred; nesting bounded by a fuel larger than the text; toString output, debug logging and the cleanup list not modelled.
* Finding: mtev_logic_parse succeeds when everything was read, not consumed: and(a=1 is accepted with a NULL root, which mtev_logic_exec dereferences.
* Finding: x=1e5 is parsed as x=1 (an exponent needs a sign), and 1e+5 is an integer with value 1.
* Finding: A pattern PCRE refuses gives a NULL node and no error.
* Finding: x ~ 5 aborts when x is a number.
* Finding: A string of 128 bytes or more compared with a number converts uninitialised memory.
* Finding: A non-numeric string neither = nor != a number.
* Finding: set_int64 after set_string leaves the old string in force against string literals.
* Finding: A space before the second or a later comma is a syntax error.
* Finding: internal[len] = len instead of 0 in set_stringn_copy.

### Cluster (C36 C37 C38 C73 C74 C75 C76 C77)

* Source: src/mtev_cluster.c (info_compose, info_process, store_payload, check_timeout, on_node_changed, find_oldest, payload set/unset/get, compile, do_i_own, filter_owners, get_nodes, update_internal), timeval helpers of mtev_defines.h
* Modelled: One cluster as a record of nodes; messages as bytes; ownership on top of the Cht module; updates as a function of the attributes.
* Simplified / not modelled: Hash tables are lists in iteration order; clock and mtev_rand are arguments; mtev_hash__hash and qsort are parameters; the XML/JSON/REST output and the extra-config hooks, the network (mtev_net_heartbeat) and threads are left out; strtoll and inet_pton appear as their results.
* Finding: get_heartbeat_payload sums the length of the next header, not of the one it leaves: offsets are wrong unless the payload is as long as the first, and the scan runs over contents and beyond the buffer.
* Finding: A node that returns while all are dead does not replace the dead node recorded as oldest.
* Finding: A peer with exactly our boot time is stored but neither the hook nor the oldest node learn of it.
* Finding: HEART_BEAT_HDR_LEN is unparenthesised: 1512 instead of 1446 bytes of payload are admitted, headers are not counted.
* Finding: number_of_payloads is a uint8_t: with 256 payloads none is sent.
* Finding: update returns 0 (inserted) for an unparsable address and 1 (updated) for any other bad node after a good one; nothing is stored.
* Finding: Port, period, timeout and maturity outside of int wrap.
* Finding: An update drops the registered payloads (hb_payloads is new).

### Http1 (C39 C40 C78 C79 C80 C81 C82 C83 C84)

* Source: src/mtev_http1.c (session_req_consume_read, session_req_consume, request_release, _http_perform_write, response_flush, the interim response), src/mtev_http.c (response_append, response_append_bchain), src/mtev_http_private.h (process_output_bchain, encode_output_raw)
* Modelled: Input: one block, the socket as unread bytes plus answers of the coming reads, one round per answer. Output: chains of blocks with identities, the socket as answers of the coming writes; assertions and runaway loops are Crash.
* Simplified / not modelled: No compression; headers are parsed and rendered elsewhere (their bytes are a parameter); a second input block (the code then gets stuck) is an outcome; block allocation succeeds; one thread per session (locks left out); HTTP/2 and websockets are left out.
* Finding: mtev_http1_request_release frees first_input: pipelined bytes already read are lost.
* Finding: Expect: 100-continue on a socket that does not take all of the interim response at once: the next flush fails mtevAssert(!ctx->res.leader).
* Finding: mtev_http_session_set_max_write(0): _http_perform_write loops for ever writing 0 bytes.
* Finding: Decoded chunk data is withheld (EAGAIN) while the next chunk is incomplete.
* Finding: An empty chunk size line counts as 0, sizes are taken modulo 2^32, any two bytes may follow the last size line; chunk extensions are refused, trailers are taken for the next request.
* Finding: A size line of 20 or more bytes without CRLF in a full block adds a second input block and the body can never be read.
* Finding: A chunk of 2^31 bytes or more yields -1 with a stale errno.
* Finding: A consume call with length 0 returns 0 like the end of the body.
* Finding: bchain_alloc of 1 MB or more makes an MMAP block; the shortcut in mtev_http_process_output_bchain leaves mmap_size unset (read, not modelled).
* Finding: An output block of 2^31 bytes or more loops for ever computing its hex length.

### Json (C42 C85 C86 C87 C88 C89 C90)

* Source: src/json-lib/mtev_json_object.c (constructors, getters, object_add, escape_str, *_to_json_string), src/json-lib/mtev_json_tokener.c (tokener_parse_ex, parse, parse_len, reset)
* Modelled: Objects as values; the parser as the state machine of the file, case by case, with the stack of 32 levels, over the characters that are left; reading beyond the stack or without end is the outcome Wrong. Grammar of RFC 8259 as an inductive relation with the missing features as switches.
* Simplified / not modelled: Reference counts, printbuf growth and user-provided formats are left out; sscanf of doubles, printf %lf and %d beyond int are parameters; the linkhash table is the list of its entries; input characters are 0..255 and the locale is C; conversions of strings and doubles in getters are left out.
* Finding: Only arrays and objects are accepted at the top level, so a serialised scalar is refused.
* Finding: get_int64/get_uint64 of an object made by new_int is 0; get_int, get_double, get_boolean of one made by new_int64/new_uint64 are 0/false.
* Finding: Capital hex digits in escapes, \\f, surrogate pairs, \\u0000 and 1E5 are refused or read as something else; integers beyond 64 bits saturate.
* Finding: mtev_json_tokener_parse accepts a text that ends inside a comment: [1 /* a is the number 1.
* Finding: A comment that ends in more than one star does not end.
* Finding: parse_ex answers parse_eof, not continue, for a first piece of white space.

### Linkh (C91 C92 C93 C94 C95)

* Source: src/json-lib/mtev_json_linkhash.c (whole file, string keys), mtev_json_object.c (object_add, object_get, object_del), mtev_json_arraylist.c (whole file), mtev_json_printbuf.c (new, memappend, reset, the macro)
* Modelled: Table as slots with indices for the links; a search without end is the outcome Hang, NULL links and places outside are Bad.
* Simplified / not modelled: The hash function is a parameter (jl_lh_char_hash is written out for the refutation); allocation succeeds; sizes stay below 2^31; the factor 0.66 is exact for the sizes that occur; statistics and jl_sprintbuf's formatting are left out.
* Finding: jl_lh_table_lookup_entry loops for ever when no LH_EMPTY entry is left: deleted entries are never counted, so an object of 11 members of which 5 were deleted and replaced by others hangs on the next lookup of an absent key.
* Finding: jl_array_list_get_idx and put_idx do not refuse negative indices.
* Finding: jl_array_list_expand_internal and jl_printbuf_memappend compute sizes in int.

### Rest (C96 C97 C98 C99 C100 C101 C102 C103 C104 C105 C106 C107)

* Source: src/mtev_rest.c (find_matching_route_rule, get_handler, get_websocket_handler, websocket_dispatcher, new_rule_auth_closure, websocket_register_auth_closure, client_cert_auth, load_rules with its helpers, match_cidr, match_listener_res, simple_file_handler)
* Modelled: Routes as lists per base; the configuration as elements with attributes; tries of the Btrie module for addresses; the layout of the two ACL structures for the read through skipto.
* Simplified / not modelled: PCRE, inet_pton, atoi, realpath, stat/open/mmap, hooks and authorisation functions are parameters; dispatch_points and the configuration of a listener are association lists (the Hash module has the table); allocation succeeds; statistics, threads (load_rules frees the lists other threads may be walking) and ACO are left out; what follows the out of bounds read of skipto is not modelled.
* Finding: mtev_http_rest_load_rules sets newacl->allow and then overwrites it by default_allow: type=allow of an acl has no effect.
* Finding: names stores newacl instead of newacl_rule: skipto points to a struct mtev_rest_acl that is read as a struct mtev_rest_acl_rule, beyond its end.
* Finding: skipto to a rule of an earlier acl is unknown, acls being loaded last to first.
* Finding: A regular expression that does not compile, a CIDR that is not understood, or an invalid listener_* expression is dropped: the rule then applies to everyone; expressions are cut at 255 characters.
* Finding: A match with more than nine groups makes pcre_exec return 0, which counts as no match, for routes and for (deny) rules.
* Finding: IPv4 networks match IPv6 clients with the same leading bits and vice versa.
* Finding: mtev_http_get_websocket_handler sets websocket_handler_memo before the authorisation: all messages but the first are delivered although it failed.
* Finding: mtev_http_rest_websocket_register_auth passes the function to a GET route; the WS route has none.
* Finding: mtev_rest_simple_file_handler: rfile[drlen] != '/' && rfile[drlen + 1] != '/' lets /srv/www2/x pass for the root /srv/www; a root with a trailing slash refuses nearly everything.
* Finding: Content type of a file without an extension: looked up by the name without its first character.

### Head (C108 C109 C110 C111 C112 C113 C114 C115 C116)

* Source: src/mtev_http1.c:413-506, 591-925 (extract_header, fixup_bchain, request_finalize, finalize_headers, complete_request, process_querystring), src/mtev_http_private.h:128-153 (inplace_urldecode)
* Modelled: Input blocks as memory with start and size; the socket as unread bytes plus answers of the coming reads; the search for the empty line over the chain of blocks; reads and writes outside of a block are Undefined.
* Simplified / not modelled: The block size is a parameter; header table and parameter table are association lists (the Hash module has the tables); strtoll written out; allocation succeeds; what follows the head is the Http1 module; HTTP/2, upgrade to websockets, logging and the hooks are left out.
* Finding: Lines 640-644 compare the start of the next block with &REQ_PAT[inset], but a match over the block boundary is missed or waited for, so a head cut within its last CRLFCRLF by a full block is never served.
* Finding: _fixup_bchain copies from the new block itself instead of the previous one and subtracts from the wrong size: a header line over two blocks closes the connection or reads outside of the block.
* Finding: A block of exactly CRLF is not seen by the size > 2 test.
* Finding: A NUL ends the headers: what follows, Content-Length included, is dropped and the body is taken for the next request.
* Finding: Transfer-Encoding is compared exactly with chunked: Chunked, or gzip, chunked, counts as no coding.
* Finding: Content-Length goes through strtoll: negative numbers and trailing characters are taken.
* Finding: Methods: the first letter is compared exactly, the rest without case: Get is GET, get is other.

### Cookie (C117 C118 C119 C120 C121 C122 C123 C124 C125 C126)

* Source: src/modules/http_hmac_cookie.c (whole file but the init function and the page templates)
* Modelled: Cookies as bytes; URL and HTML encoding are those of the Url module on its memory; the request path of the login redirect is read by the Head module; a copy beyond an array, or the use of a pointer into a moved buffer, is Bad.
* Simplified / not modelled: The HMAC (OpenSSL) is a function of the text to 32 bytes; clock and nonce are arguments; mtev_b64_decode is a parameter; the authentication hook is a function of user and password; the query parameter whereto is an argument of login; ACO, logging and memory leaks (ra after success) are left out; mtev_http_request_user/auth hold C strings.
* Finding: The lengths of user and auth are put in a uint8_t: a user whose name is root followed by 256 more bytes is given a cookie of root.
* Finding: Form values go through mtev_url_decode, which refuses + and *: a password with a space or an asterisk is taken for the empty password, a destination with one for /.
* Finding: A login form submitted with a valid cookie is answered by the redirect although the hook refused the credentials.
* Finding: whereto is copied to Location unchecked: open redirect, and CR LF inserts headers.
* Finding: The setting domain is never read: the code compares with max_age twice.
* Finding: The reset page prints the user name without HTML encoding; signatures are compared by memcmp; what follows the signature is ignored (read).
* Finding: The domain is taken from the Host header by number of dots: example.co.uk gives Domain=co.uk, which browsers refuse.

### Reply (C127 C128 C129 C130 C131 C132 C133)

* Source: src/mtev_http1.c:1474-1554, 1874-2066 (response_status_set, header_set, option_set, _http_construct_leader, create_websocket_accept_key, websocket_handshake), mtev_http_private.h:160-168 (choice of the compression)
* Modelled: The response as a record; the leader as a chain of blocks with their sizes; mtev_b64_encode is that of the B64 module; a status line longer than its block is Bad, a loop without end Hang.
* Simplified / not modelled: The block size is a parameter; the header table is an association list (the Hash module has the table); qsort is any function that arranges the names in order; SHA-1 is a parameter of 20 bytes; header names and values hold no NUL; mtev_http_response_starting_hook is another sequence of calls before the start; check_realloc_response, ACO and statistics are left out; the body is the Http1 module.
* Finding: snprintf's return value is used as the size of the first block without a check.
* Finding: Header values are not checked for CR and LF.
* Finding: Names differ by case in the table, so Content-Type and content-type are both sent.
* Finding: option_set tests opt & req.opts: one common bit is enough for all the bits asked for.
* Finding: A response whose status was not set is HTTP/0.9 000 unknown.
* Finding: A 101, 204 or 304 response, and one to HEAD, gets Transfer-Encoding: chunked (or close) like any other.
* Finding: A websocket upgrade over HTTP/1.0 is answered with Connection: close.
* Finding: The whole list in Sec-WebSocket-Protocol is echoed, where the RFC wants one of its elements.
* Finding: output_raw_chain_bytes counts the last block of the head only (read).

### Membuf (C134 C135 C136 C137 C138 C139 C140)

* Source: src/utils/mtev_log.c:206-461, 2872-2906 (membuf init, intersect_seg, membuf_logio_writev, mtev_log_memory_lines, mtev_log_memory_lines_since, mtev_log_speculate, mtev_log_speculate_finish)
* Modelled: The ring as head, tail, offsets, cut and the bytes of the segment; the bounds checks and the goto bail as written; unsigned lengths wrap when lines are read; a copy outside of the segment is None.
* Simplified / not modelled: A line's time is 16 bytes given to the write; indices are naturals (nexttail is an int in the code, so that the ring breaks after 2^31 lines, and afterwhich wraps at 2^64); offsets are below 2^32; the callback takes every line; membuf_logio_open's defaults, the lock and the log stream around the ring are left out.
* Finding: mtev_log_memory_lines and so mtev_log_speculate_finish, the console command and the REST endpoint leave out the first line.
* Finding: A second line that does not fit beside the first and only one sets offsets[tail] to 0; from then on the bounds check fails for every line: the log is stuck for ever.
* Finding: The wrap has by then changed segmentcut, so that the line left is read with bytes nobody wrote.
* Finding: With a stale slot (offsets 0, 40, 80 in 100 bytes and a line of 30) a line is lost as well.
* Finding: Line 0 cannot be asked for by itself.

### Pack (C141 C142 C143 C144 C145 C146)

* Source: src/modules/lua_lpack.c (doendian, doswap, l_pack, l_unpack)
* Modelled: Formats as C strings parsed to codes with counts; the data as bytes; the host's byte order is a parameter; a read outside of the data, a negative length given to lua_pushlstring, an int overflow of position or count, and a double converted to an integer type it does not fit are Bad.
* Simplified / not modelled: Doubles and floats are a record of conversions of which only the sizes and dget (dput x) = x are assumed; char is signed, int 4 and long 8 bytes; luaL_checknumber and luaL_checklstring take no string for a number nor a number for a string; the data is shorter than 2^31; lua_Number is double.
* Finding: P and a read their length as a signed short and int (pack writes unsigned): a length with its first bit set is negative, passes the test and becomes a huge size_t for lua_pushlstring.
* Finding: So strings of 32768 to 65535 bytes packed by P cannot be unpacked.
* Finding: pack truncates the length to its prefix without a word: 258 bytes by p come back as 2.
* Finding: The start position is not checked: 0 or less reads before the data.
* Finding: A count of A is a repetition when packing and a length when unpacking; A0 gives an empty string when unpacking.
* Finding: An unterminated z string is taken to the end of the data and the position is one beyond the end.
* Finding: An unknown code with count 0 is ignored; counts overflow int.

### Logs (C147 C148 C149 C150 C151 C152 C153 C154)

* Source: src/utils/mtev_log.c:483-567, 1484-1490, 1536-1623, 1690-1794, 1930-2013, 2078-2113, 2224-2428, 2597-2848 (the graph of streams, the tracker of filters, construction_needed, log_line, vlog, writev)
* Modelled: Streams as a list, pointers as indices; outlets as lists; the recursion of materialize_deps, has_material_output, construction_needed and log_line with the depth of the stack as an argument (None: overflow or a failed assertion); the cache of eight filter answers; a writer is given texts with the parts in front of them.
* Simplified / not modelled: A filter is a function of the line that, unless it is marked as looking at the message, does not depend on its text (the Logic module has the expressions); mtev_loggers is a list in order of creation; openop of final_resolve succeeds; the texts of time and debug prefixes, the flatbuffer and JSON encodings (Whole), hooks, zipkin spans, probes, locks, return values, mtev_log_stream_remove and the bits of flags_below other than enabled (which nothing reads) are left out.
* Finding: mtev_log_stream_new_on_fd and mtev_log_final_resolve do not rematerialize: lines are dropped until another change of the graph.
* Finding: An outlet that closes a loop (also a stream as its own outlet) makes materialize_deps recurse until the stack overflows.
* Finding: mtev_log_stream_new on a stream found before drops its outlets, the one to its parent included.
* Finding: bitor->flags is overwritten on the way: only the writer's flags and those of the stream right before it count.
* Finding: mtev_log_writev in a signal handler hands the total length to writeop although fewer parts were copied, and copies a first part beyond the 16384 bytes of its buffer.
* Finding: A filtered outlet removed as not the first is freed without its filter (read).

### Timer (C155 C156 C157 C158 C159 C160 C161)

* Source: src/eventer/eventer_impl.c:102-114, 1158-1296 (eventer_timecompare, add_timed, remove_timed, update_timed_internal, dispatch_timed), src/eventer/eventer.c (alloc_timer, update_whence, free), src/mtev_defines.h:134-180 (compare_timeval, sub_timeval, add_timeval)
* Modelled: One event loop: the two queues as lists, events as numbers, the event being run, and what was done as a history; callbacks are lists of calls and a result, by the number of the turn; clock readings likewise; a failed assertion or the use of a freed event is None.
* Simplified / not modelled: The skip lists are lists with insertion after equals (the Skip module has the skip list); an event has one reference and one owner; locks, wakeups, statistics, latency handles, cross-thread triggers, other event kinds and 64 bit overflow of seconds are left out; calls of other threads are calls between dispatches.
* Finding: The clock is read before the last callback and not after it: a loop whose callback took five seconds sleeps five seconds too long, past timers that are due.
* Finding: eventer_dispatch_timed clamps to eventer_max_sleeptime, not to the shorter sleep time that eventer_adjust_max_sleeptime computed; the epoll loop (unlike the kqueue one) does not clamp again.
* Finding: eventer_update_whence of a timer that is not registered registers it, so that a following eventer_add fails mtevAssert.
* Finding: An event that is added twice aborts at once or at the next sweep, depending on the queue it is in.

### Rsock (C162 C163 C164 C165 C166 C167 C168 C169 C170 C171)

* Source: src/mtev_reverse_socket.cpp:34, 67-141, 194-319, 423-511, 516-688, 714-985, 1242-1311 (IFCMD, append_in, append_out, pop_out, command_out, channel_shutdown, shutdown, channel_handler, handler, connect)
* Modelled: One endpoint as a state machine over the answers of reads and writes; local connections are numbered as they are opened; what is seen is kept as a history, over which the properties are stated by functions of their own (encoding, owner of a channel, frames owed, data that came).
* Simplified / not modelled: One thread at a time, so that AGING is not seen and the event of a channel is always that of its connection; a channel's handler is called for its own connection only; mtev_support_connection, socketpair, reads and writes are parameters; frame_hdr is parsed once, when it is whole; counters, timeouts, wakeups, masks returned, registration by name, the HTTP-like handshake, proxies and reconnection are left out; a failed endpoint is not used again.
* Finding: Channels are used again at once: data, SHUTDOWN or RESET still on its way for the last connection of a channel reaches the new one.
* Finding: reads_remaining is decremented for frames on channels in use only: a peer that sends frames on a free channel keeps the handler in its loop, which queues a RESET for each and writes none.
* Finding: An end of file on the local side closes the channel although data for it is still queued: half-closed connections lose data.
* Finding: mtev_reverse_socket_handler's debug message reads channels[channel_id] before channel_id is checked, and CONNECT's payload is not freed (read).
* Finding: mtev_reverse_socket_shutdown frees the outgoing frames but leaves outgoing_tail (read).

### Alpn (C172 C173 C174 C175 C176)

* Source: src/eventer/eventer_SSL_fd_opset.c:1140-1255 and eventer_SSL_fd_opset.h:106-125
* Modelled: The callbacks, the registration of functions and eventer_ssl_alpn_advertise over byte strings; the loops over the client's list work by position, as the code does. The properties speak of lists of names and their encoding.
* Simplified / not modelled: Hash tables are lists of pairs; pointers into the client's list are positions; OpenSSL checks that the list is well formed (names of 1 to 255 bytes); nghttp2_select_next_protocol is any function; that the callbacks are in place when npn is set is assumed; the old npn, which is not freed when it is replaced, is not modelled.
* Finding: eventer_alpn_select_always chooses the first name offered, not the one it was found for: a server with h2 registered without a function answers spdy/3.1 to a client that offers spdy/3.1 and h2.
* Finding: EVENTER_SSL_ALPN_MATCHER tests memcmp(in+1, ...) without == 0 and without i: a client that offers http/1.1 alone gets no answer, one that offers spdy/3.1 and http/1.1 gets spdy/3.1.
* Finding: A protocol that is registered but not advertised is chosen all the same.
* Finding: next_proto_cb offers only the first name.

### Mkdir (C177 C178 C179 C180)

* Source: src/utils/mtev_mkdir.c:39-62
* Modelled: mkdir_for_file over a file system that is a map from paths to directories and files, with mkdir(2) as POSIX has it; the search for the last slash goes by position, as in the code.
* Simplified / not modelled: No symbolic links; . and .. are names as others; no other process is at work; which directories may be made is a parameter; PATH_MAX is that of Linux, and nothing but its being above 100 is used.
* Finding: A plain file with the name of the directory is taken for it (errno is EEXIST).
* Finding: For a file directly in the root the answer is -1, although the root is there.
* Finding: A name longer than PATH_MAX is searched, and cut with a NUL, outside of the buffer.

### Bit (C181 C182 C183 C184 C185 C186)

* Source: src/modules/lua_bit.c:45-133 (whole file but the registration and its self-test)
* Modelled: barg by the 52 bits of the double that the sum with 2^52 + 2^51 is; words of 32 bits as integers modulo 2^32; a shift by 32 and the negation of the least int are outcomes of their own (Out). The properties are stated by the bits of the answer and by a relation that reads digits.
* Simplified / not modelled: Numbers are integers from -2^51 to 2^51 (fractions, which the sum rounds, and larger numbers are not modelled); doubles are not swapped (SWAPPED_DOUBLE); a cast to int32_t wraps and a shift of a negative number is arithmetic, as the library's self-test demands; the stack of Lua is a list.
* Finding: bit.rol and bit.ror by a multiple of 32 shift by 32, which is undefined in C.
* Finding: bit.tohex(x, 0x80000000) negates the least int: undefined, and with the usual outcome n stays negative, so that a string of about 2^64 bytes is made from a buffer of eight.

### Lockfile (C187 C188 C189 C190)

* Source: src/utils/mtev_lockfile.c:40-116 (whole file)
* Modelled: The three functions over a kernel with POSIX record locks: a write lock of a whole file belongs to a process, a lock of one's own is no conflict, and closing any descriptor of the file gives it up. What fcntl does is a list of answers (interrupted, fails, works); for acquire_owner, what other processes do between F_GETLK and F_SETLK is a list of calls.
* Simplified / not modelled: A descriptor's number is not used again and is closed by its own process only; a process is not forked; other users of the lock (fcntl elsewhere) are left out; -1 is None; within mtev_lockfile_acquire and release nothing else happens.
* Finding: Two users of one lock file within a process share the lock: releasing either descriptor gives the lock up for both, and so does a second acquire that fails.
* Finding: acquire_owner asks for the owner before it tries the lock: it can answer -1 with *owner -1, and a descriptor with *owner some process.

## Properties

| property | module | status | proof and limits |
|---|---|---|---|
| C01 Base32 encode then decode is the identity | B32 | proved | Round trip for all byte strings and sufficient sizes (with ignorable characters interleaved), equality with RFC 4648 text, case insensitivity. `C01_b32_roundtrip`, `C01_b32_roundtrip_plain`, `C01_b32_rfc4648`, `C01_b32_case_insensitive` |
| C02 Base32 codec never writes outside the caller's buffer | B32 | partial | Encoder in bounds proved. The decoder's size check rounds down, so the full statement is false: _refuted gives the witness, _safe_sizes characterises exactly the safe destination sizes, _count and _mult8 are the guards that hold. `C02_b32_encode_in_bounds`, `C02_b32_decode_in_bounds_refuted`, `C02_b32_decode_safe_sizes`, `C02_b32_decode_count`, `C02_b32_decode_in_bounds_mult8` |
| C03 Base64 encode then decode is the identity | B64 | proved | Round trip (exact-size destination; relaxed text with white space and URL-safe letters), RFC 4648 equality, iovec = concatenation. Wide/SIMD loops of the bundled codec are outside the model. `C03_b64_rfc4648`, `C03_b64_iovec`, `C03_b64_roundtrip`, `C03_b64_roundtrip_relaxed` |
| C04 Base64 decoding is bounded by the declared buffer and by the reported maximum | B64 | proved | Both decoding passes stay in bounds for every text and size; return value bounded by the reported maximum; encoder in bounds. `C04_b64_decode_in_bounds`, `C04_b64_decode_max_len`, `C04_b64_encode_in_bounds` |
| C05 URL encode then decode is the identity, also in place | Url | proved | Encoder equals the canonical RFC 3986 encoding (also in place), decoder accepts exactly the percent-encodings, round trip. `C05_url_encode_rfc3986`, `C05_url_decode_exact`, `C05_url_roundtrip` |
| C06 URL codec never writes outside the caller's buffer | Url | partial | Decoder in bounds proved; encoder in bounds for mtev_url_encode_len proved. Full claim false: a destination of 3*n is accepted and the terminator is stored past it; an in-place call with dest_len < src_len copies below the destination (both _refuted). `C06_url_decode_in_bounds`, `C06_url_encode_in_bounds_refuted`, `C06_url_encode_inplace_refuted`, `C06_url_encode_in_bounds` |
| C07 HTML encoding is injective, inert and bounded | Url | partial | Faithful, inert and in bounds proved. Sufficiency of mtev_html_encode_len is false (_refuted); one more byte suffices (proved). `C07_html_faithful`, `C07_html_in_bounds`, `C07_html_len_enough_refuted`, `C07_html_len_enough` |
| C08 UUID text and binary forms are inverse and parsing is strict | Uuid | proved | parse/unparse for all 16-byte values and all strings; isxdigit is taken in the C locale. `C08_uuid_roundtrip`, `C08_uuid_parse_exact`, `C08_uuid_parse_in_bounds`, `C08_uuid_canonical`, `C08_uuid_unparse_shape` |
| C09 List merge sort returns a sorted permutation | Sort | proved | pointer-level model of the whole function; lists of up to 2^30 nodes (beyond that list_size overflows int). `C09_sort_sorted_permutation` |
| C10 List merge sort is stable, as its documentation says | Sort | partial | documented stability is false: refuted with a witness; proved instead that ties come out exactly reversed, so the sort is stable iff there are no ties. `C10_sort_stable_refuted`, `C10_sort_ties_reversed_partial`, `C10_sort_stable_without_ties_partial` |
| C11 Bounded substring search finds the first occurrence | Kmp | proved | KMP search for all needles shorter than 256 bytes, the byte after the needle being readable (see C44). `C11_search_first_occurrence`, `C11_search_null_iff_absent`, `C11_search_total` |
| C12 String append/prepend buffers equal concatenation | Str | proved | both buffers, every initial size and every sequence of calls whose total is below about 2^31/3 bytes (beyond it the int holding the new size overflows). `C12_prepend_is_concatenation`, `C12_append_is_concatenation` |
| C13 LRU cache holds the most recently used keys | Lru | partial | Matches the textbook LRU on all histories without an overwriting put; exact behaviour on all histories proved (each overwrite loses one slot until invalidate; crash when no slot remains); hits always return the last value; at most cap keys. `C13_lru_textbook_partial`, `C13_lru_behaviour`, `C13_lru_overwrite_crash_refuted`, `C13_lru_capacity_refuted`, `C13_lru_coherent`, `C13_lru_bounded` |
| C14 LFU cache evicts a least frequently used key and stays within its bound | Lfu | proved | Whole histories refine a textbook LFU cache with FIFO ties; coherence, size and victim minimality follow. use counts are unbounded naturals (size_t in C); the mutex makes calls sequential. `C14_lfu_textbook`, `C14_lfu_coherent`, `C14_lfu_keys`, `C14_lfu_bounded`, `C14_lfu_victim` |
| C15 Prefix trie answers are longest-prefix matches | Btrie | proved | Refinement of the trie to a map from bit strings: for every history that runs, lookup = longest configured prefix (both families, arbitrary uninitialised words); assertions never fire. NULL dereference and pstack overrun are claim C51. `C15_longest_match`, `C15_never_aborts`, `C15_del_returns` |
| C16 Flow regulator never exceeds its limit and issues each transition once | Flow | proved | every schedule: no assertion fails, admitted amount <= high, at most one unacknowledged notification, strict alternation. `C16_limits_and_alternation` |
| C17 Flow regulator never loses a wake-up | Flow | proved | quiescent and stopped implies held > low; the lower call that drains to low returns ENABLE. `C17_no_lost_wakeup`, `C17_rest_states`, `C17_draining_enables` |
| C18 Hook chains run most recent first, abort stops them and done sticks | Hooks | proved | every list of sequential registrations and every vector of results. `C18_invoke`, `C18_exists` |
| C19 No hook registration is lost under concurrency | Hooks | partial | False as written (C19_none_lost_refuted): the CAS re-reads the head as its expected value. Proved: nothing lost when no registration completes between another's two reads (C19_undisturbed); on every schedule the chain is finite, duplicate free and headed by the latest registration (C19_any_schedule). A compiler that merges the two plain reads hides the defect. `C19_none_lost_refuted`, `C19_undisturbed`, `C19_any_schedule` |
| C20 Calendar conversion agrees with the proleptic Gregorian calendar | Confstr | proved | mtev_timegm equals a year-by-year, month-by-month count for all years from 1970; every RFC 3339 text is refused or gives that time minus the offset (strptime is a parameter assumed only to read such texts). `C20_timegm`, `C20_parse_time`, `C20_parse_real`, `C20_parse_sound` |
| C21 Date validation accepts exactly the dates of the Gregorian calendar | Confstr | partial | False: validation applies the leap rule to tm_year, so 2000-02-29 is refused and 2300-02-29 accepted (_refuted). C21_accepts_partial characterises exactly the accepted dates; correct in all years not divisible by 100. `C21_leap_year_refuted`, `C21_accepts_partial`, `C21_ordinary_years` |
| C22 Duration strings mean the sum of their terms | Confstr | partial | Grammar accepted is exact; sum correct whenever it is below 2^64; scale factors agree. Larger sums wrap silently (_refuted, C22_wraps). `C22_accepts`, `C22_sum_partial`, `C22_tables_positive`, `C22_wraps`, `C22_overflow_refuted`, `C22_units`, `C22_scales`, `C22_variants_agree`, `C22_terminates` |
| C23 Consistent hashing returns distinct owners in ring order | Cht | proved | any collision pattern for distinctness; first owner = responsible node when no two points collide. `C23_distinct_owners`, `C23_first_is_responsible` |
| C24 Consistent hashing moves only the keys it must | Cht | proved | no collisions on the ring; adding or removing a node moves keys only to or from it. `C24_moves_only_what_it_must` |
| C25 Dynamic buffers hold exactly what was appended | Dynbuf | proved | every operation sequence within the stated size limits. `C25_contents`, `C25_detach`, `C25_maybe_vprintf`, `C25_curl` |
| C26 Console tokenizer reproduces quoted words | Tok | proved | all lines, all words, all capacities. `C26_words`, `C26_any_words`, `C26_total` |
| C27 Interned strings are equal exactly when their handles are equal | Intern | partial | Refuted as stated: mtev_intern_str compares the byte after the string (C27_handles_refuted) and strings and data share entries (C27_returned_refuted). Proved for programs that intern only terminated strings, or only data; for any program handles are equal exactly when the stored bytes are. `C27_handles_refuted`, `C27_returned_refuted`, `C27_strings_partial`, `C27_blobs_partial`, `C27_stored_bytes`, `C27_terminated_call` |
| C28 Intern pool allocator never hands out overlapping memory | Ipool | proved | Whole calls in sequence; mmap grants disjoint, aligned extents. `C28_pool_memory_partitioned`, `C28_compaction_keeps_free_space`, `C28_compaction_sort`, `C28_pool_stats_exact` |
| C29 Skip list behaves as an ordered set | Skip | proved | Lists without further indexes, comparators that order the data (at most one element equal to a key). `C29_set`, `C29_state`, `C29_members`, `C29_members_remove`, `C29_ambiguous_key` |
| C30 Logic expressions evaluate by boolean algebra over the bound variables | Logic | proved | evaluation, argument order, missing variables, has_predicate; doubles, strtod and PCRE are parameters. `C30_predicate`, `C30_formula`, `C30_order`, `C30_missing`, `C30_has_predicate` |
| C31 Job queue neither loses nor duplicates jobs and keeps subqueue order | Jobq | proved | any interleaving of atomic sections; fewer than 2^32-1 worker threads. `C31_memory_safe`, `C31_each_job_once`, `C31_line`, `C31_fifo`, `C31_yields` |
| C32 Job queue backlog limit is respected | Jobq | proved | any interleaving. `C32_limit`, `C32_refused_exactly_when_full` |
| C33 Hash table behaves as a finite map | Hash | proved | Every history of store, set, replace, retrieve, get, delete, delete_all, size and iteration over arbitrary byte keys, for every hash function and iteration order of ck_hs, returns and frees what a finite map does, with no leaked or dangling element. `C33_map`, `C33_store` |
| C34 Fixed-size replacing hash never returns a value for another key | Frrh | proved | Sequentially consistent steps; hash function, probability function and allocator are arbitrary. `C34_get`, `C34_lasts`, `C34_set`, `C34_refused`, `C34_wait_free`, `C34_can_move`, `C34_stats` |
| C35 Cardinality sketch depends only on the set of values added | Hll | proved | XXH64 is an arbitrary function. `C35_registers`, `C35_same_set`, `C35_same_values`, `C35_never_decreases`, `C35_precisions` |
| C36 Cluster heartbeat messages round-trip | Cluster | proved | Messages of members with at most 255 payloads; arbitrary bytes at face value. `C36_roundtrip`, `C36_compose`, `C36_ignored`, `C36_any_bytes`, `C36_only_sender` |
| C37 Cluster heartbeat payloads are retrievable by application and key | Cluster | partial | Refuted: the lookup adds the length of the following header, so a payload of another length than the first is returned from the wrong place, beyond the message if longer; unregistered ones read past the table. Exact place proved; right iff as long as the first. `C37_refuted`, `C37_exact`, `C37_equal_lengths_partial`, `C37_none`, `C37_absent_overrun` |
| C38 The oldest visible cluster node is the live node with the least boot time | Cluster | partial | Refuted by a node that comes back to a cluster of dead nodes and by a peer with our own boot time. Proved for every history without these two, after every check in which a node died, and the exact effect of the first. `C38_refuted`, `C38_calm_partial`, `C38_recomputed`, `C38_revival`, `C38_am_i_oldest` |
| C39 Chunked request bodies decode independently of how the network splits them | Http1 | proved | C39_decode and C39_complete for every body, split and buffer sequence. `C39_decode`, `C39_complete` |
| C40 HTTP output is written in order and exactly once under short writes | Http1 | proved | C40_order, C40_complete, C40_readable, C40_accepts for every operation sequence and write schedule. `C40_order`, `C40_complete`, `C40_readable`, `C40_accepts` |
| C41 Counting semaphore admits at most its value | Sem | proved | Any number of calls interleaved step by step; mutex and condition variable by their contract, spurious wake-ups included; initial value plus posts below 2^32 (C41_wraps shows what happens otherwise). `C41_conservation`, `C41_admits`, `C41_no_lost_wakeup`, `C41_blocks_only_at_zero`, `C41_no_deadlock`, `C41_wraps` |
| C42 JSON strings round-trip through serialisation | Json | partial | Proved for arrays and objects nested at most 31 levels deep (C42_round_trip_partial, C85). False beyond: every serialised scalar is refused (C42_scalars_refuted), as is nesting of 32 (C42_deep_refuted). `C42_round_trip_partial`, `C42_scalars_refuted`, `C42_deep_refuted` |
| C43 Base64 decoding is a function of the text | B64 | partial | False of the code: 'A=' emits a byte computed from an uninitialised temporary (_refuted). C43_b64_decode_determinate characterises exactly the texts with determinate output. `C43_b64_decode_determinate_refuted`, `C43_b64_decode_determinate` |
| C44 Substring search touches only the bytes it is given | Kmp | partial | false: every non-empty needle makes kmp_precompute read the byte after it and a 256-byte needle overruns the table; refuted, exact conditions proved. `C44_search_in_bounds_refuted`, `C44_search_faults_partial`, `C44_search_ignores_next_byte_partial`, `C44_search_long_needle_aborts_partial` |
| C45 A string taken from an append buffer is NUL terminated | Str | partial | false: refuted with eight bytes in a fresh buffer; proved exactly when the terminator is present. `C45_to_string_terminated_refuted`, `C45_to_string_terminated_iff_partial`, `C45_to_string_unterminated_partial` |
| C46 Bounded string copies never overrun and always terminate | Str | partial | strlcpy with size > 0, strlcat and strndup proved; strlcpy with size 0 stores a byte (refuted). Models the fallback bodies compiled when libc has no strlcpy/strlcat. `C46_strlcpy`, `C46_strlcpy_size0_refuted`, `C46_strlcat`, `C46_strlcat_full`, `C46_strndup` |
| C47 Bounded LRU cache disposes of every value exactly once | Lru | proved |  `C47_lru_ownership` |
| C48 Unlimited LRU cache behaves as an owning map | Lru | partial | Proved for histories without overwriting put and without invalidate; overwrite unlinks an unlinked entry and invalidate leaks (refuted). `C48_lru_unlimited_partial`, `C48_lru_unlimited_overwrite_refuted`, `C48_lru_unlimited_invalidate_refuted` |
| C49 Bounded LFU cache disposes of every value exactly once | Lfu | proved | Exact accounting of every value over all histories with max_entries > 0. `C49_lfu_ownership` |
| C50 LFU cache frees its frequency buckets, and is a plain owning map when unbounded | Lfu | partial | Proved: no double free of a bucket, no freed, empty or duplicate bucket in the list; unbounded mode is a map without overwrites/invalidate. False in general: touch leaks an emptied bucket (mtev_lfu.c:257-289), overwriting with max_entries<0 goes through an unset frequency_list_head, invalidate leaks there, max_entries=0 get leaves *value untouched. `C50_lfu_buckets_partial`, `C50_lfu_bucket_leak_refuted`, `C50_lfu_unlimited_partial`, `C50_lfu_unlimited_overwrite_refuted`, `C50_lfu_unlimited_invalidate_refuted`, `C50_lfu_zero_refuted` |
| C51 Prefix trie calls are total | Btrie | partial | False: deleting the only route (or any prefix at the root without two children) dereferences NULL; 129 nested prefixes overrun pstack[128]. Proved: total when every deletion leaves some added prefix uncovered and no /128 is added; IPv4 lookups always in bounds. `C51_run_total_partial`, `C51_find_total`, `C51_delete_last_refuted`, `C51_overrun_refuted` |
| C52 Prefix trie releases each route's data once | Btrie | partial | Proved for deletion and drop_tree (exactly once each, only live routes). Overwriting a route forgets the old data without a call of f (_refuted), so the full statement is false. `C52_released_once`, `C52_overwrite_refuted` |
| C53 IPv4 routes and IPv6 lookups do not interfere | Btrie | partial | False: 10.0.0.0/8 answers lookups of 0a00::/8 addresses (_refuted). Proved: IPv4 calls whose bits do not cover the IPv6 address cannot change its answer. `C53_families_partial`, `C53_families_refuted` |
| C54 Configuration booleans | Confstr | proved | Both directions for every string. `C54_boolean` |
| C55 The stable flow-regulator calls wake every refused producer | Flow | partial | False with two producers (C55_stable_wakes_refuted: the refused one is never signalled). Proved for schedules with at most one stable_try_raise_one in progress at a time (C55_one_producer_wakes). `C55_stable_wakes_refuted`, `C55_one_producer_wakes` |
| C56 The published share of a node is the fraction of hashes it serves | Cht | partial | refuted when points collide (owned underflows or the ring is left unsorted); exact without collisions. `C56_owned_is_share_refuted`, `C56_owned_is_share` |
| C57 Building the hash ring terminates and keeps every node that fits | Cht | partial | 31 bits is undefined behaviour (1<<31); termination and completeness proved for every other size. `C57_set_takes_all_refuted`, `C57_set_takes_all` |
| C58 Dynamic buffers waste at most half and leak nothing | Dynbuf | proved | footprint and leak freedom for every history. `C58_footprint` |
| C59 Formatted appends either append or leave the buffer alone | Dynbuf | partial | refuted: an encoding error moves the write position back one byte (before the buffer when empty), and 2 GiB of room makes add_printf abort; exact outcomes proved. `C59_printf_total_refuted`, `C59_error_rewinds`, `C59_error_underruns`, `C59_large_room_aborts` |
| C60 Unbalanced quotes on a command line are reported | Tok | partial | refuted: a single quote followed by text, or a double quote ending in a backslash, is silently dropped with the rest of the line; exact classification of every line proved. `C60_classification`, `C60_unbalanced_is_error_refuted`, `C60_unbalanced` |
| C61 Changing the LIFO setting of a job queue loses no job | Jobq | partial | refuted: switching LIFO off while jobs wait drops them at the next enqueue; the exact loss, and safety when drained (C31), are proved. `C61_switching_loses_nothing_refuted`, `C61_lost` |
| C62 Subqueues of a job queue share the workers fairly | Jobq | proved | any interleaving. `C62_fair_share` |
| C63 Interning an item of a documented size always finds memory | Ipool | partial | Refuted: a merged free fragment of 4 GiB indexes before the level table; proved: no abort below 4 GiB, allocation succeeds with power-of-two extents, and exactly which items make the search loop forever or get no memory. `C63_pool_compaction_4g_refuted`, `C63_pool_never_aborts_partial`, `C63_pool_alloc_succeeds_partial`, `C63_pool_search_never_ends_partial`, `C63_pool_large_items_partial` |
| C64 Interned handles stay valid under every interleaving | Intern | proved | Any number of calls interleaved step by step (sequentially consistent); locks by their contract; fewer than 2^32-2 references at a time. `C64_never_aborts`, `C64_contents_stay`, `C64_reclaimed_unheld`, `C64_refcount`, `C64_no_leak`, `C64_no_deadlock` |
| C65 The cardinality estimate is always a number | Hll | partial | Refuted for precisions 4 to 8 (C65_finite_refuted); exact condition and proof for precisions 9 and up in C65_finite_partial. Floating point part not modelled. `C65_finite_refuted`, `C65_finite_partial`, `C65_estimate_input` |
| C66 Displaced hash entries are released once, and never under a reader | Frrh | partial | Refuted for the default freef, free() (C66_readers_refuted); release exactly once holds always (C66_released_once), no read after release holds when freef defers or calls do not overlap (C66_readers_partial). `C66_readers_refuted`, `C66_readers_partial`, `C66_released_once` |
| C67 Hash entries fit the memory requested for them | Frrh | proved |  `C67_layout`, `C67_alignment` |
| C68 Merging dictionaries copies every binding and frees what it displaces | Hash | proved | Merge theorem for dictionaries as the header requires, and the exact over-read condition for binary keys. `C68_merge`, `C68_binary` |
| C69 Comparison operators of logic expressions negate one another | Logic | partial | true against string literals, and against numbers exactly when the variable is a comparable number; false otherwise: a non-numeric string neither equals nor differs from a number, a number against a numeric pattern aborts, a string of 128 bytes or more against a number reads uninitialised memory. `C69_string_literals`, `C69_order`, `C69_numeric_literals`, `C69_not_a_number`, `C69_refuted`, `C69_long_string`, `C69_decimal` |
| C70 Every text of the expression grammar parses to the tree it denotes | Logic | proved | for the generated grammar, including whole nesting and spacing; every NUL-free string has a literal. `C70_parse`, `C70_any_string`, `C70_escapes` |
| C71 mtev_logic_parse refuses what is not an expression | Logic | partial | refuted: unterminated text is accepted with a NULL root, x=1e5 is taken for x=1, a bad pattern gives a NULL node, a space before the second comma is refused; what is accepted is characterised as a run of expressions and an ignored rest. `C71_accepted`, `C71_refuted`, `C71_comma_space_refuted` |
| C72 The last setter decides the value of a logic variable | Logic | partial | true for strings set last, and for numbers set last against numeric literals; refuted for a number set after a string the variable did not allocate, which string literals are still compared with. `C72_string_last`, `C72_number_last`, `C72_refuted` |
| C73 Registered heartbeat payloads behave as a bounded map that fits a frame | Cluster | partial | Map behaviour, refusal and the invariant proved. Frame limit refuted: the macros are unparenthesised, 1512 bytes are admitted and headers not counted; exact frame size proved. `C73_refuted`, `C73_frame`, `C73_table`, `C73_set`, `C73_unset` |
| C74 Cluster members agree on who owns a key | Cluster | proved | Hash and qsort are parameters; distinct node ids, at most 65536 nodes. `C74_owners`, `C74_more`, `C74_all`, `C74_primary`, `C74_agree`, `C74_members` |
| C75 Cluster updates are ordered by sequence and report what they did | Cluster | partial | Ordering and stored values proved. The return value is wrong for bad node elements (0 or 1 with nothing done; exact), numbers out of int range wrap (exact). `C75_refuted`, `C75_answers_partial`, `C75_bad_nodes`, `C75_monotone`, `C75_stored`, `C75_as_written` |
| C76 The cluster hook is called once for every change of a node | Cluster | partial | Refuted for a peer with our own boot time (exact effect proved); proved in all other cases. `C76_refuted`, `C76_hook_partial`, `C76_clash` |
| C77 A timeout check kills exactly the silent nodes | Cluster | proved | Valid times, nonnegative timeout and maturity. `C77_timeouts` |
| C78 A closed HTTP response is delivered if the socket keeps taking bytes | Http1 | partial | C78_delivered_partial needs a non-zero write limit; C78_limit_refuted: with a limit of 0 (mtev_http_session_set_max_write accepts it) nothing is ever written and the loop does not end. `C78_delivered_partial`, `C78_limit_refuted` |
| C79 Request bodies with a content length are read exactly | Http1 | proved | C79_decode and C79_complete. `C79_decode`, `C79_complete` |
| C80 Pipelined request bytes survive to the next request | Http1 | partial | False for the code: C80_pipelined_refuted; C80_lost says exactly which bytes are lost (the ones already buffered, src/mtev_http1.c:989-994). `C80_lost`, `C80_pipelined_refuted` |
| C81 Only well-formed chunked bodies are accepted | Http1 | partial | False for the code: C81_strict_refuted (empty size line, arbitrary bytes after the last size, sizes modulo 2^32); C81_accepted characterises what is accepted. `C81_accepted`, `C81_strict_refuted` |
| C82 No input makes the chunk reader claim bytes beyond its buffer | Http1 | proved | C82_bounded. `C82_bounded` |
| C83 Body bytes that were received are handed over without waiting for more | Http1 | partial | C83_plain_partial: true for bodies with a content length; C83_withheld_refuted: false for chunked bodies. `C83_plain_partial`, `C83_withheld_refuted` |
| C84 Expect: 100-continue works on a slow connection | Http1 | partial | C84_continue_partial: true if the interim response fits at once; C84_pending_crash and C84_survives_refuted: otherwise the next flush fails the assertion at src/mtev_http1.c:1956. `C84_continue_partial`, `C84_pending_crash`, `C84_survives_refuted` |
| C85 Arrays and objects survive serialisation and parsing | Json | proved | Both entry points; doubles under the hypothesis that sscanf reads back what printf printed, which fails for most doubles since six decimals are printed. `C85_round_trip` |
| C86 Feeding the JSON parser in pieces equals feeding it the whole text | Json | partial | Proved when the opening bracket is in the first piece (C86_pieces), for any texts once the parser asked for more (C86_continue), and for answers with input left over (C86_early). False when the first piece is white space (C86_blank_refuted). `C86_pieces`, `C86_continue`, `C86_early`, `C86_blank_refuted` |
| C87 Every JSON document is accepted with its value | Json | partial | Proved for documents nested at most 31 levels without six features (C87_document, C87_rest); each of the six is necessary (C87_features_refuted). `C87_document`, `C87_rest`, `C87_features_refuted` |
| C88 JSON numbers are returned by the getters | Json | partial | Proved for parsed integers (C88_parsed) and for the getter of the type used to build (C88_built); the other getters return 0 (C88_other_refuted). `C88_parsed`, `C88_built`, `C88_other_refuted` |
| C89 The JSON parser stays within its stack and returns | Json | proved | The model makes an access beyond the stack or a loop without progress a distinct outcome, excluded for all call sequences. `C89_safe` |
| C90 A JSON text that was cut short is not accepted as something else | Json | partial | Proved for parse_ex with a length (C90_truncated); mtev_json_tokener_parse agrees unless the text ends in a comment (C90_nul), where it does accept a part (C90_comment_refuted). `C90_truncated`, `C90_nul`, `C90_comment_refuted` |
| C91 JSON objects are maps in insertion order | Linkh | proved | For every hash function; termination is the separate property C92. `C91_map`, `C91_safe` |
| C92 Calls on JSON objects return | Linkh | partial | Proved for histories in which object_del took away at most four members (overwriting does not count), so for everything the parser builds; five removals can make the next lookup loop for ever (C92_lookup_refuted). `C92_returns`, `C92_lookup_refuted` |
| C93 JSON arrays keep what was put into them | Linkh | proved | Negative indices are outside of the property; they access memory before the array (C93_negative_refuted). `C93_array`, `C93_negative_refuted` |
| C94 Every value put into a JSON object or array is released exactly once | Linkh | proved | Objects and arrays; the order of release is in C91 and C93. `C94_object`, `C94_array` |
| C95 The JSON text buffer never overflows and holds what was appended | Linkh | proved | Sizes are unbounded in the model; the int arithmetic overflows from 2^30 bytes on. `C95_printbuf` |
| C96 A REST request goes to the first matching route under the longest registered base | Rest | proved | Registration and choice of the route, websockets included; PCRE is a parameter restricted only to offsets within the subject. `C96_route`, `C96_total` |
| C97 A REST handler receives the groups its expression captured | Rest | partial | Parameters are exact for the routes taken; false in full: with more than nine groups pcre_exec returns 0 and the route never matches (C97_many_groups_refuted). Groups after the last one that took part are not passed. `C97_params_partial`, `C97_many_groups_refuted` |
| C98 OPTIONS lists the methods a URL answers to | Rest | proved | OPTIONS and 404 without a base; a method with several matching routes is repeated. `C98_options`, `C98_no_base` |
| C99 The first access control list that applies decides, by its first rule that applies, else by its type | Rest | partial | Proved with the type of the acl taken as deny; false in full: load_rules overwrites the type of the acl by default_allow, so type=allow of an acl has no effect (C99_acl_type_refuted). `C99_decision_partial`, `C99_acl_type_refuted` |
| C100 REST access is denied by default | Rest | proved | For all configurations that do not run into skipto (C102). `C100_granted` |
| C101 A condition that cannot be used never widens access | Rest | partial | False: what cannot be compiled or understood is dropped and the rule applies to all (C101_fail_open_refuted); the exact reading of every condition is proved for all configurations (C101_conditions_partial). `C101_conditions_partial`, `C101_fail_open_refuted` |
| C102 A rule with skipto continues at the rule of that name | Rest | partial | False: the table of names holds the acl instead of the rule, evaluation reads beyond the end of the acl (C102_skipto_refuted); exactly when this happens is C102_skipto_partial. A name in an earlier acl is never found. `C102_skipto_partial`, `C102_skipto_refuted` |
| C103 A rule with an ip applies to exactly the clients in that network | Rest | partial | Exact for all networks and clients; false in full because the family is not compared (C103_family_refuted). `C103_network_partial`, `C103_family_refuted` |
| C104 A REST handler runs only for authorised requests | Rest | proved | Hooks and authorisation functions are arbitrary; migration between threads is left out. `C104_authorised`, `C104_runs`, `C104_denied` |
| C105 A websocket handler receives only messages of authorised clients | Rest | partial | False in two ways: the handler is remembered before the function is asked, so all messages after the first are delivered (C105_second_message_refuted, exact in C105_messages_partial); mtev_http_rest_websocket_register_auth attaches the function to a GET route that websockets never use (C105_register_auth_refuted, for all uses). `C105_messages_partial`, `C105_second_message_refuted`, `C105_register_auth_refuted` |
| C106 The file handler serves only files below the document root | Rest | partial | False: a directory next to the root whose name has one more character is served (C106_sibling_refuted); nothing else outside is (C106_inside_partial). `C106_inside_partial`, `C106_asked`, `C106_sibling_refuted`, `C106_sibling_accepted`, `C106_below_accepted` |
| C107 The content type of a file follows its extension | Rest | partial | Proved for names with a dot; without one the first character of the name is dropped (C107_name_refuted). `C107_extension_partial`, `C107_name_refuted` |
| C108 URL decoding inverts URL encoding | Head | proved |  `C108_decoded`, `C108_any_text` |
| C109 Query parameters are those the URI states | Head | proved | Names and values without NUL. `C109_parameters`, `C109_without` |
| C110 A request is taken as it was written | Head | proved | Heads within B - B/4 bytes of one block (24528 bytes with the block size of the code), no NUL, no Expect header (C114). `C110_request` |
| C111 What becomes of a request head does not depend on how it arrives | Head | partial | Proved for heads within one block. Refuted for larger ones: a block that ends within the last line end (C111_terminator_refuted: never served) or within a line (C111_crossing_refuted: closed or outside of the buffer). `C111_splits_partial`, `C111_terminator_refuted`, `C111_crossing_refuted` |
| C112 Only a request is taken for one | Head | proved | Heads without NUL that fit one block. `C112_accepted` |
| C113 No header of a served request is lost | Head | partial | Refuted: everything after a NUL is dropped (C113_nul_refuted), so a Content-Length after it is not seen. Holds without NUL (C113_kept_partial). `C113_nul_refuted`, `C113_kept_partial` |
| C114 The body of a request is delimited as RFC 7230 says | Head | partial | Exact rules proved; refuted for codings in another case and for lengths that are no numbers (negative, trailing characters). `C114_framing_partial`, `C114_coding_refuted`, `C114_length_refuted`, `C114_expect_partial` |
| C115 No bytes make the head reader leave its buffers | Head | partial | Proved for heads within one block; refuted when a line crosses two blocks (C115_two_blocks_refuted). `C115_one_block_partial`, `C115_two_blocks_refuted` |
| C116 Method and protocol are recognized by their exact names | Head | partial | Exact rules proved: the first letter decides by case, the others do not; Get is GET (C116_case_refuted). `C116_recognized_partial`, `C116_case_refuted` |
| C117 An issued login cookie identifies its user until it expires | Cookie | proved | Cookie module: refresh then request_complete, for every HMAC of 32 bytes, nonce and accompanying cookies. `C117_round_trip` |
| C118 Only a cookie with a valid signature authenticates | Cookie | proved | Cookie module: inversion of request_complete; the variant about issued cookies takes unforgeability of HMAC as hypothesis. `C118_accepted`, `C118_issued`, `C118_distinct` |
| C119 The user in a cookie is the user who logged in | Cookie | partial | Exact: names are cut to length mod 256; refuted for 256 bytes or more (the cookie of v++w, |w|=256, is a cookie of v). For shorter names C117. `C119_identity_partial`, `C119_long_refuted` |
| C120 Cookie handling stays inside its buffers | Cookie | proved | Cookie module: the outcome Bad does not occur. `C120_reading`, `C120_issuing` |
| C121 The credentials checked are those entered in the login form | Cookie | partial | Holds for values without space and asterisk; any other value is received as the empty string (C121_lost), so the property as stated is refuted. `C121_credentials_partial`, `C121_lost`, `C121_refuted` |
| C122 A login succeeds only with credentials that are accepted | Cookie | partial | Holds for requests without a cookie; with one, every submitted form is answered by the redirect although the credentials were refused (C122_cookie_refuted). `C122_success_partial`, `C122_refused_partial`, `C122_cookie_refuted` |
| C123 After login the browser stays on the site | Cookie | partial | Refuted: any text, other hosts and CRLF included, becomes the Location; proved only that it is the submitted whereto or /. `C123_location_partial`, `C123_anywhere_refuted` |
| C124 After login the browser is at the page that was asked for | Cookie | partial | Whole chain proved for pages without space and asterisk; a page with one leads to / (C124_space_refuted). The path is the decoded one. `C124_back_partial`, `C124_space_refuted`, `C124_denied` |
| C125 The domain of a login cookie is one the host belongs to | Cookie | proved | Cookie module: domain_of, exact. `C125_domain`, `C125_cookie` |
| C126 The cookie module does what it is configured to | Cookie | partial | key, max_age (below 2^32), user_NAME and rejection proved; domain is never set (the code tests max_age twice). `C126_config_partial`, `C126_rejected`, `C126_domain_refuted` |
| C127 A client reads the status line and exactly the headers a handler set | Reply | partial | False without conditions: CR LF in a value starts new lines, a reason phrase longer than a block writes outside of it, one that just fits loses the line feed (refuted). Proved: the exact bytes for all calls and block sizes when the line is not exactly of the size of a block, unique reading when the texts are single lines, field lines are read back, exact condition for the overrun. `C127_reads_partial`, `C127_text_partial`, `C127_fields`, `C127_overrun_refuted`, `C127_nul_refuted`, `C127_injection_refuted` |
| C128 A client can always tell where the body of a response ends | Reply | proved | For handlers that do not set Transfer-Encoding, Connection, Content-Encoding or Vary themselves; CLOSE is accepted for every request (complete_request sets it). `C128_delimited`, `C128_old_clients`, `C128_announced`, `C128_standard` |
| C129 A response never announces both a length and chunks | Reply | partial | False: a handler that sets Content-Length and asks for chunks sends both (refuted). Proved: never both when no chunks are asked for. `C129_both_refuted`, `C129_one_partial` |
| C130 The content encoding announced is the one the body goes through | Reply | proved | For handlers that do not set these headers themselves. `C130_encoding` |
| C131 A client gets an encoding only if it accepts it | Reply | partial | False: options asked for together (CHUNKED|GZIP) are granted when the client takes one of them (refuted). Proved for options asked for one at a time. `C131_accepted_partial`, `C131_together_refuted` |
| C132 The head is what the handler last said, and final once output has started | Reply | proved | Frozen after the start; last status; last value; nothing else. `C132_frozen`, `C132_last_status`, `C132_refused_status`, `C132_last_value`, `C132_nothing_else` |
| C133 A websocket handshake follows RFC 6455 | Reply | partial | False: neither the values of Upgrade and Connection nor the version are checked, the 101 answer carries Transfer-Encoding: chunked (refuted). Proved: who is upgraded exactly, and the exact fields of the answer, with the accept key of the RFC. `C133_who_partial`, `C133_answer_partial`, `C133_refuted` |
| C134 A memory log gives back its lines as they were written | Membuf | partial | Proved for lines of at most a quarter of the segment. Refuted in full: two lines that do not fit beside one another are enough, and lines with bytes that nobody wrote are then given (C134_corrupt). `C134_intact_partial`, `C134_refuted`, `C134_corrupt` |
| C135 A memory log keeps the recent lines | Membuf | proved | For lines of at most a quarter of the segment. `C135_kept` |
| C136 mtev_log_memory_lines gives the number of lines asked for | Membuf | partial | Refuted: one line less than asked for is given, none for 1 (mtev_log_memory_lines passes the number of the first line to a function that gives what follows). Proved exactly: all but the first of the lines asked for. `C136_all_but_one_partial`, `C136_refuted` |
| C137 A reader that follows a memory log sees every line once | Membuf | proved | For lines of at most a quarter of the segment; includes when the lines are still there. `C137_follow` |
| C138 Committing a speculation logs its lines | Membuf | partial | Refuted: the first line is never logged. Proved exactly: all but the first. `C138_first_lost_partial`, `C138_refuted` |
| C139 A line that fits in a memory log is logged | Membuf | partial | Proved for lines of at most a quarter of the segment. Refuted: a second line that does not fit beside the first is lost, and every later line, for ever (C139_stuck). `C139_logged_partial`, `C139_stuck`, `C139_refuted` |
| C140 A memory log writes only to its memory | Membuf | proved | Any lines at all. `C140_inside` |
| C141 string.unpack gives back what string.pack packed | Pack | partial | Proved for strings shorter than 256 (p), 32768 (P), 2^31 (a) bytes and all other codes but A; C141_refuted: P with 32768 to 65535 bytes makes unpack use a negative length (C141_word), C141_byte says what is left of longer p strings. `C141_round_trip_partial`, `C141_word`, `C141_byte`, `C141_refuted` |
| C142 string.unpack reads only the data | Pack | partial | Proved for all data for formats without P and a; C142_refuted and C142_negative: with P or a a length whose top bit is set is used as a negative size. `C142_safe_partial`, `C142_negative`, `C142_refuted` |
| C143 string.unpack of cut data gives the complete values | Pack | proved | A string z that is cut is taken as ended and is excluded in the statement. `C143_cut`, `C143_unended` |
| C144 Packed integers have the byte order asked for | Pack | proved | For values that fit their type; conversion of others is undefined in C. `C144_order` |
| C145 A count in a format is a repetition | Pack | proved | Counts up to 2^31-1; above, the counter overflows. `C145_counts`, `C145_plain` |
| C146 Unknown codes and missing arguments are Lua errors | Pack | proved | Unknown codes with count 0 are not reached, hence ignored. `C146_errors` |
| C147 A line is written once for every way to a writer | Logs | proved | New_on_fd and Resolve are C148. `C147_every_way_once`, `C147_not_needed` |
| C148 A stream that writes gets lines as soon as it is there | Logs | partial | Refuted for mtev_log_stream_new_on_fd and mtev_log_final_resolve, which do not rematerialize the graph; proved that a following new or change of flags settles it. `C148_on_fd_refuted`, `C148_resolve_refuted`, `C148_new_partial`, `C148_flags_partial` |
| C149 Calls that connect streams return | Logs | partial | Refuted: an outlet that closes a loop never returns; proved that all others do and that no returned call leaves a loop. `C149_add_returns_partial`, `C149_loop_refuted`, `C149_no_loops` |
| C150 mtev_log_stream_find makes a stream below its parent | Logs | proved |  `C150_found`, `C150_made`, `C150_parent`, `C150_new_starts_anew` |
| C151 Prefixes asked for on the way are written | Logs | partial | Refuted for streams further up; proved exactly which two streams count. `C151_last_two_partial`, `C151_further_up_refuted`, `C151_alone` |
| C152 Splitting streams write one line at a time | Logs | proved |  `C152_split_lines`, `C152_whole`, `C152_in_order` |
| C153 Parts are written in one piece | Logs | partial | Refuted in a signal handler for more than 16384 bytes; proved otherwise. `C153_writev_partial`, `C153_handler_refuted`, `C153_handler_bad` |
| C154 Each call on log streams changes only what it names | Logs | proved |  `C154_add`, `C154_add_filtered`, `C154_remove`, `C154_remove_all`, `C154_set_flags`, `C154_set_plain`, `C154_register`, `C154_resolve`, `C154_new_fails` |
| C155 A timer never runs before its time | Timer | proved | C155_run_never_early: every run in every history; needs no discipline of the client. `C155_run_never_early` |
| C156 A timer runs once for each time it is added | Timer | proved | C156_run_while_waiting, C156_calls_succeed. `C156_run_while_waiting`, `C156_calls_succeed` |
| C157 Timers run in the order of their times | Timer | proved | C157_run_in_order. `C157_run_in_order` |
| C158 A dispatch serves every timer that is due, each at most once, and ends | Timer | proved | C158_dispatch_serves (at most once, none left that is due, the clock readings), C158_dispatch_script (what follows each run), C158_dispatch_total. `C158_dispatch_serves`, `C158_dispatch_script`, `C158_dispatch_total` |
| C159 The loop sleeps no longer than until the next timer | Timer | partial | C159_sleep_refuted, C159_sleep_stale_refuted: the clock is not read after the last callback, and the sleep time given to the dispatch is not a bound. C159_sleep_partial: the exact sleep time, relative to the last reading. `C159_sleep_partial`, `C159_sleep_refuted`, `C159_sleep_stale_refuted` |
| C160 Time values are added, subtracted and compared exactly | Timer | proved | C160_timeval_arithmetic, C160_timecompare_orders. `C160_timeval_arithmetic`, `C160_timecompare_orders` |
| C161 A new time for an event changes when it runs, not whether | Timer | partial | C161_update_refuted: an event that is not registered gets registered. C161_update_partial: exactly what happens, and that a following add aborts; C161_double_add_aborts. `C161_update_partial`, `C161_update_refuted`, `C161_double_add_aborts` |
| C162 A reverse socket sends the frames it owes, whole and in order | Rsock | proved | All histories of calls of one endpoint (two for C166), whose shared connection delivers bytes. `C162_wire`, `C162_words`, `C162_progress`, `C162_reads` |
| C163 Frames are read the same however the bytes arrive | Rsock | proved | All histories of calls of one endpoint (two for C166), whose shared connection delivers bytes. `C163_frames`, `C163_any_pieces` |
| C164 A frame beyond the limits, or an error, ends everything; nothing else does | Rsock | proved | All histories of calls of one endpoint (two for C166), whose shared connection delivers bytes. `C164_failure`, `C164_bad_header`, `C164_final`, `C164_error` |
| C165 A local connection is given the data of its channel, once and in order | Rsock | proved | All histories of calls of one endpoint (two for C166), whose shared connection delivers bytes. `C165_given`, `C165_progress` |
| C166 Two ends agree on the frames | Rsock | proved | All histories of calls of one endpoint (two for C166), whose shared connection delivers bytes. `C166_link`, `C166_all` |
| C167 Connections are opened and closed only for a reason | Rsock | proved | All histories of calls of one endpoint (two for C166), whose shared connection delivers bytes. `C167_lawful`, `C167_granted`, `C167_stops`, `C167_local_end` |
| C168 A new connection gets a channel of its own | Rsock | proved | All histories of calls of one endpoint (two for C166), whose shared connection delivers bytes. `C168_connect` |
| C169 A connection is given nothing meant for another | Rsock | partial | Refuted: channels are used again while frames for their last connection are on their way, and nothing tells the two apart. Proved: a connection is given only what arrived after it was opened. `C169_refuted`, `C169_clean_partial` |
| C170 One call acts on a bounded number of frames | Rsock | partial | Refuted: frames on free channels and granted CONNECTs do not count against the limit of 500, so one call acts on any number, queueing a RESET for each and writing nothing. Proved: at most 500 frames for connections in use. `C170_unbounded`, `C170_refuted`, `C170_taken_partial` |
| C171 What came for a connection is given to it before it is closed | Rsock | partial | Refuted: when the local side stops sending, data it had not yet taken is dropped. Proved: nothing is lost if the connection is closed by a frame of the peer. `C171_refuted`, `C171_closed_by_peer_partial` |
| C172 The protocols advertised are those of the configuration that are registered | Alpn | proved | All strings and tables. `C172_advertise`, `C172_register`, `C172_off` |
| C173 Only a protocol the client offers is chosen | Alpn | proved | All tables and offers; the functions of the library are shown to choose among what is offered. `C173_select`, `C173_offered`, `C173_honest` |
| C174 Only a protocol the server has is chosen | Alpn | partial | Refuted in three ways: the default function chooses the first name offered whatever name it was found for; the matcher chooses another name of the same length; a name that is known but not advertised is chosen. Proved: what is chosen if all functions are the default. `C174_refuted`, `C174_matcher_refuted`, `C174_unadvertised_refuted`, `C174_always_partial` |
| C175 A client that offers one protocol the server has gets it | Alpn | partial | Refuted: the matcher tests that the first name offered is not its own, so it passes exactly when it should choose. Proved: what the matcher does for every offer. `C175_refuted`, `C175_first_lost`, `C175_matcher_partial` |
| C176 NPN offers every protocol advertised | Alpn | partial | Refuted: the length given is that of the first name. Proved: exactly the first name is offered. `C176_refuted`, `C176_first_partial` |
| C177 When mkdir_for_file answers 0, the directory of the file is there | Mkdir | partial | Refuted: if a plain file has the name of the directory, mkdir gives EEXIST and the answer is 0. Proved: this is the only case. `C177_refuted`, `C177_there_partial` |
| C178 mkdir_for_file makes only the directories on the way | Mkdir | proved | All file systems, permissions and names of fewer than PATH_MAX bytes. `C178_only`, `C178_top` |
| C179 mkdir_for_file answers 0 if there is nothing to do | Mkdir | partial | Refuted: for a file in the root, /f, or in the current directory, f, the answer is -1. Proved: for all other names it succeeds whenever no file is in the way and the directories may be made. `C179_refuted`, `C179_succeeds_partial` |
| C180 mkdir_for_file keeps to its buffer | Mkdir | partial | Refuted: the copy is cut to PATH_MAX but the search for the slash starts at the length of the name. Proved: it stays inside exactly for names of at most PATH_MAX bytes. `C180_refuted`, `C180_exact_partial` |
| C181 bit.tobit, bnot, band, bor and bxor work bit by bit | Bit | proved | For all integer arguments from -2^51 to 2^51 and any number of them, by the bits of the answer. `C181_tobit`, `C181_bnot`, `C181_band`, `C181_bor`, `C181_bxor` |
| C182 The bit library raises an error for what is no number | Bit | proved | Every function, with the thing that is no number in any place, or with the argument missing. `C182_logic`, `C182_single`, `C182_shift`, `C182_short`, `C182_tohex` |
| C183 bit.lshift, rshift and arshift | Bit | proved | For all numbers and counts from -2^51 to 2^51. `C183_left`, `C183_right`, `C183_sign` |
| C184 bit.rol and ror | Bit | partial | Does not hold for a count that is a multiple of 32 (C184_refuted; C184_whole_turn says for every such count that the shift by 32, undefined in C, is made); proved for all other counts (C184_rotates_partial). `C184_refuted`, `C184_rotates_partial`, `C184_whole_turn` |
| C185 bit.bswap turns the bytes round | Bit | proved | For all numbers from -2^51 to 2^51. `C185_bytes`, `C185_twice` |
| C186 bit.tohex gives the digits asked for | Bit | partial | Does not hold for a count that is -2^31 modulo 2^32 (C186_refuted; C186_least says for every such count that the least int is negated); proved for all other counts (C186_digits_partial) and without a count (C186_eight). `C186_refuted`, `C186_digits_partial`, `C186_eight`, `C186_least` |
| C187 A lock file has one owner | Lockfile | proved | C187_exclusive over all runs; C187_kernel: the kernel's lock is that of the owner the history tells of. `C187_exclusive`, `C187_kernel` |
| C188 A lock is kept until its descriptor is released | Lockfile | partial | Does not hold (C188_refuted: a process with two descriptors of the file releases one; C188_failed_call_refuted: a second acquire that fails); proved for processes that close no other descriptor of the file (C188_keeps_partial). `C188_refuted`, `C188_failed_call_refuted`, `C188_keeps_partial` |
| C189 What mtev_lockfile_acquire and release answer | Lockfile | proved | C189_free, C189_held, C189_release, for the state after any run; C189_interrupted and C189_release_interrupted: any number of interruptions before what fcntl does in the end. `C189_free`, `C189_held`, `C189_release`, `C189_interrupted`, `C189_release_interrupted` |
| C190 mtev_lockfile_acquire_owner names the owner | Lockfile | partial | Does not hold (C190_refuted: another process takes the lock between the two calls of fcntl); proved, with what it means for *owner to be -1, if nothing happens between them (C190_names_partial). `C190_refuted`, `C190_names_partial` |
