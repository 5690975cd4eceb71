{"id": "C01", "title": "Keys are totally ordered and equality agrees with the order", "statement": "Comparing two overlay keys (fingerprints, subject hashes) gives -1, 0 or 1; the relation is antisymmetric and transitive, 0 is returned exactly when the 256-bit keys are identical, equality testing agrees with it, and a missing key sorts before every present key.", "quantifier": "all pairs and triples of 256-bit keys, including absent ones", "why_tests_cant": "There are 2^256 keys; a test can only sample pairs, while every sorted container in the library relies on the order laws for all of them.", "anchors": ["src/np_dhkey.c:_np_dhkey_cmp", "src/np_dhkey.c:_np_dhkey_equal"]}
{"id": "C02", "title": "Key addition and subtraction are exact inverses", "statement": "For any two keys, adding and then subtracting the same key gives back the first key; addition commutes and associates, and the results are always well formed 8x32 bit keys.", "quantifier": "all pairs and triples of keys", "why_tests_cant": "Wrap-around happens independently in eight 32 bit words; sampling cannot cover all carry combinations.", "anchors": ["src/np_dhkey.c:_np_dhkey_add", "src/np_dhkey.c:_np_dhkey_sub"]}
{"id": "C03", "title": "Ring distance between keys is symmetric, zero on equal keys and bounded by half the ring", "statement": "The distance used for routing is the same in both directions, zero for identical keys, and never exceeds the half-ring value; distinct keys should have non-zero distance and the triangle inequality should hold (the code violates these two; exact counterexamples are given).", "quantifier": "all pairs of keys", "why_tests_cant": "Counterexamples to the metric laws live on a vanishing fraction of inputs.", "anchors": ["src/np_dhkey.c:_np_dhkey_distance"]}
{"id": "C04", "title": "Interval membership on the key ring follows the clockwise arc", "statement": "Asking whether a key lies between two bounds on the ring answers true exactly for keys on the clockwise arc from the left to the right bound, with the bounds themselves included exactly when requested, also if the arc wraps around zero.", "quantifier": "all triples of keys and both values of the include-bounds switch", "why_tests_cant": "Needs all orderings of three 256 bit values and all coincidences.", "anchors": ["src/np_dhkey.c:_np_dhkey_between"]}
{"id": "C05", "title": "Key to hex string conversion is lossless", "statement": "Writing any key as its 64 character hex string and parsing it again gives the same key; the string always has exactly 64 lower case hex digits, and strings of another length are answered with the zero key.", "quantifier": "all keys, all strings", "why_tests_cant": "2^256 keys.", "anchors": ["src/np_dhkey.c:_np_dhkey_str", "src/np_dhkey.c:np_dhkey_create_from_hash", "src/np_util.c:np_id_str"]}
{"id": "C06", "title": "Longest common prefix index of two keys", "statement": "The row index used by prefix routing is the number of leading hexadecimal digits two keys share: it is 64 iff the keys are equal, it is symmetric, all earlier digits agree, and the digit at the index differs.", "quantifier": "all pairs of keys", "why_tests_cant": "Loops over nibbles with an early exit; the claim covers all 2^512 pairs.", "anchors": ["src/np_dhkey.c:_np_dhkey_index", "src/np_dhkey.c:_np_dhkey_hexalpha_at"]}
{"id": "C07", "title": "Hamming distance counts differing bits", "statement": "The bit distance between two keys is the number of bit positions in which they differ.", "quantifier": "all pairs of keys", "why_tests_cant": "The result type is 8 bit wide while the true answer ranges over 0..256; only the complementary pair is wrong, which random testing never meets.", "anchors": ["src/np_dhkey.c:_np_dhkey_hamming_distance"]}
{"id": "C08", "title": "Priority queue returns elements in order", "statement": "For any history of inserts and head removals the queue contains exactly the multiset of inserted and not yet removed elements and the head returned is a minimum of them; hence draining it yields a sorted permutation.", "quantifier": "all element types with a total preorder, all histories of insert / take-head within capacity", "why_tests_cant": "Quantifies over unbounded operation histories and heap shapes.", "anchors": ["include/util/np_heap.h:NP_BINHEAP_GENERATE_IMPLEMENTATION"]}
{"id": "C09", "title": "Jobs never run early and are selected by time then priority", "statement": "A job handed to a worker has a due time not in the future, the job queue never exceeds its bound, accepted jobs are neither lost nor duplicated, and a periodic job is rescheduled exactly one interval after its start.", "quantifier": "all histories of submissions, clock values and single-worker selections", "why_tests_cant": "Timing and history dependent; tests see one schedule.", "anchors": ["src/np_jobqueue.c:_np_jobqueue_insert", "src/np_jobqueue.c:__np_jobqueue_select_job", "src/np_jobqueue.c:np_jobqueue_submit_event_periodic"]}
{"id": "C10", "title": "Concurrent workers never take the same job and never take a job before it is due", "statement": "With several workers selecting jobs concurrently, each queued job is handed out at most once, and a job handed out is due.", "quantifier": "all interleavings of any number of workers", "why_tests_cant": "Interleaving dependent; the window between peek and pop is tiny.", "anchors": ["src/np_jobqueue.c:__np_jobqueue_select_job"]}
{"id": "C11", "title": "Linked list containers behave like sequences", "statement": "Append, prepend, head, tail, remove, find, contains, merge and clone on the list containers have exactly the effect of the same operation on a finite sequence, and the stored size is the length; the priority list keeps its elements ordered and refuses duplicates if asked to.", "quantifier": "all element types, all histories of operations", "why_tests_cant": "Unbounded histories of pointer manipulations.", "anchors": ["include/util/np_list.h"]}
{"id": "C12", "title": "Simple cache is a first-write-wins map", "statement": "After any history of add and find, find(k) returns the value of the first add(k,v) that was accepted and nothing else; a second add for the same key is refused and does not change the stored value; other keys are unaffected.", "quantifier": "all keys, values, bucket counts > 0, hash functions and histories", "why_tests_cant": "Must hold for every hash collision pattern.", "anchors": ["src/util/np_scache.c"]}
{"id": "C13", "title": "Skip list is a sorted set for every coin sequence", "statement": "After any history of add, find and remove, membership equals that of a mathematical set, iteration is sorted and duplicate free, independent of the random heights chosen.", "quantifier": "all histories, all random height sequences", "why_tests_cant": "Random tower heights: every coin sequence must work.", "anchors": ["src/util/np_skiplist.c"]}
{"id": "C14", "title": "Data blocks are maps with exact read-back", "statement": "After any sequence of writes to a data block, reading a key gives the value most recently written to it, all other keys are unchanged, the element count equals the number of distinct keys, and a write that does not fit fails without altering anything.", "quantifier": "all block sizes, keys, values, histories", "why_tests_cant": "In-place byte shifting with variable length encodings; unbounded histories.", "anchors": ["src/neuropil_data.c:np_set_data", "src/neuropil_data.c:np_get_data", "src/util/s11n_impl/np_serialize_qcbor.c"]}
{"id": "C15", "title": "Space calculation for data block entries is sufficient", "statement": "The number of bytes calculated for storing an entry is at least the number of bytes its encoding needs.", "quantifier": "all key lengths, value sizes and integer values", "why_tests_cant": "Fails only at encoding boundaries (length 24, sizes above 65535, values equal to 24).", "anchors": ["src/util/s11n_impl/np_serialize_qcbor.c:np_serializer_calculate_object_size"]}
{"id": "C16", "title": "Attribute policies admit exactly the tokens that carry the required attributes", "statement": "With no policy every token is admitted; with a policy set, every token whose attributes include all required ones is admitted.", "quantifier": "all policies and attribute sets", "why_tests_cant": "Probabilistic filter: no false rejections must hold for all sets of strings.", "anchors": ["src/neuropil_attributes.c:np_evaluate_attribute_policy_in_data_block", "src/util/np_bloom.c"]}
{"id": "C17", "title": "State machine takes the first enabled transition only", "statement": "For any rule table and any event, at most one transition fires, it is the first rule in table order whose source is the current state and whose condition holds, exit and entry actions run exactly once, and with no enabled rule the state is unchanged.", "quantifier": "all rule tables, states, conditions", "why_tests_cant": "All rule tables and condition outcomes.", "anchors": ["src/util/np_statemachine.c"]}
{"id": "C18", "title": "Generic tree is a finite map", "statement": "After any history of insert, replace and delete with keys of one kind, lookup returns the current binding, insert never overwrites, replace always does, and size equals the number of keys.", "quantifier": "all histories, all balanced tree shapes", "why_tests_cant": "Tree rebalancing and unbounded histories; comparator corner cases.", "anchors": ["src/util/np_tree.c", "include/tree/tree.h"]}
{"id": "C19", "title": "Size bookkeeping for tree values covers the encoding", "statement": "The calculated byte size of every value is at least the number of bytes its wire encoding needs.", "quantifier": "all values of all types", "why_tests_cant": "Boundary values of each integer type.", "anchors": ["src/util/np_treeval.c:np_treeval_get_byte_size"]}
{"id": "C20", "title": "Bloom filters never forget an added item", "statement": "After any history of adds (and no removal or decay) every added item is reported as contained; union contains everything contained in either operand.", "quantifier": "all items, all histories within capacity", "why_tests_cant": "No-false-negative is a universal statement over hash values.", "anchors": ["src/util/np_bloom.c:_np_standard_bloom_add", "src/util/np_bloom.c:_np_standard_bloom_check", "src/util/np_bloom.c:_np_scalable_bloom_add"]}
{"id": "C21", "title": "Removing one item from a counting filter keeps the others", "statement": "After any history of adds and removals of previously added items, every item added more often than removed is still reported as contained.", "quantifier": "all histories", "why_tests_cant": "8 bit cells saturate/wrap only after long histories; shared cells.", "anchors": ["src/util/np_bloom.c:_np_counting_bloom_add", "src/util/np_bloom.c:_np_counting_bloom_remove"]}
{"id": "C22", "title": "Routing bloom filter: add/check/union without loss", "statement": "In the routing filter an added item is found, stays found under further adds and unions within capacity, ageing removes it after a bounded number of decrements, and counters never overflow within capacity.", "quantifier": "all items, histories within capacity, all unions", "why_tests_cant": "Cell sharing between all hash values.", "anchors": ["src/util/np_bloom.c:_np_neuropil_bloom_add", "src/util/np_bloom.c:_np_neuropil_bloom_check", "src/util/np_bloom.c:_np_neuropil_bloom_union"]}
{"id": "C23", "title": "Minhash signatures depend only on the set of tokens", "statement": "The signature is independent of order and repetition of pushed tokens; merging two signatures equals the signature of the union; similarity of a signature with itself is maximal.", "quantifier": "all token lists, all signature sizes", "why_tests_cant": "All permutations of all lists.", "anchors": ["src/util/np_minhash.c"]}
{"id": "C24", "title": "Bounded random numbers stay in range and are unbiased", "statement": "Drawing with bound b > 0 gives a value smaller than b and every residue has the same number of accepted raw values.", "quantifier": "all bounds and generator states", "why_tests_cant": "Statistical tests cannot establish exact uniformity for each bound.", "anchors": ["src/util/np_pcg_rng.c:np_rng_next_bounded"]}
{"id": "C25", "title": "Prefix trie is a finite map", "statement": "After any history of inserts a lookup finds every inserted key and no other; deletion removes exactly the given key.", "quantifier": "all histories of insert and delete, all keys of the configured length", "why_tests_cant": "Failure needs particular nibble sharing patterns of several keys.", "anchors": ["src/util/np_cupidtrie.c"]}
{"id": "C26", "title": "Routing table has no duplicates and only keys in their proper row and column", "statement": "After any history of joins and leaves every stored neighbour sits in the row given by its common prefix with the own key and the column of its next digit, a node is stored at most once, a leave removes the node completely, and the route counter equals the number of stored entries.", "quantifier": "all own keys and histories of joins and leaves", "why_tests_cant": "History dependent: needs a join after a gap.", "anchors": ["src/np_route.c:_np_route_update"]}
{"id": "C27", "title": "Leafset keeps the closest nodes of each half ring, sorted and bounded", "statement": "After any history of joins and leaves both leafset halves are sorted by distance to the own key, bounded in size, duplicate free and never contain the own key; an arriving closer node displaces only the farthest one.", "quantifier": "all histories", "why_tests_cant": "All histories of arrivals and departures.", "anchors": ["src/np_route.c:_np_route_leafset_update"]}
{"id": "C28", "title": "Closest key search and key sorting", "statement": "Searching the closest key in a list returns an element of the list with minimal distance to the target; sorting keys by distance or by common prefix gives a sorted permutation of the list.", "quantifier": "all lists of keys and targets", "why_tests_cant": "All lists and all permutations; termination of the exchange loop.", "anchors": ["src/np_keycache.c:_np_keycache_find_closest_key_to", "src/np_keycache.c:_np_keycache_sort_keys_kd", "src/np_keycache.c:_np_keycache_sort_keys_cpm"]}
{"id": "C29", "title": "Pheromone tables stay bounded, and the oldest entry is evicted", "statement": "However pheromones arrive and decay, the number of subjects per pheromone bucket and of sources per subject stays bounded and no call fails or blocks; a pheromone taken in is found at once by asking for its subject, with the neighbour it came from; it stays answerable while its strength lasts and is forgotten afterwards; nobody is named who did not bring a pheromone of that subject; and when a source list is full the oldest entry is the one dropped.", "quantifier": "all histories of inhale and exhale", "why_tests_cant": "History dependent.", "anchors": ["src/np_pheromones.c"]}
{"id": "C30", "title": "Event chains run every step once in order", "statement": "All events added to an event chain are executed exactly once, in order of addition; attached user data is released exactly once after the last event.", "quantifier": "all chains up to the capacity limit", "why_tests_cant": "All chain lengths.", "anchors": ["src/np_eventqueue.c"]}
{"id": "C31", "title": "A message is split into enough chunks", "statement": "The number of chunks computed for a message is the payload size divided by the chunk payload, rounded up, so that all payload bytes are carried.", "quantifier": "all payload sizes", "why_tests_cant": "Breaks only for payloads larger than 64 KiB.", "anchors": ["src/np_message.c:_np_message_calculate_chunking"]}
{"id": "C32", "title": "Chunk reassembly is order independent", "statement": "If all chunks of a message arrive, in any order and possibly more than once, the receiver reassembles exactly the sent payload, and never reports completeness while a chunk is missing.", "quantifier": "all arrival orders, duplicates and chunk counts", "why_tests_cant": "n! arrival orders and unbounded duplication.", "anchors": ["src/np_message.c:_np_message_add_chunk"]}
{"id": "C33", "title": "Messages survive the way through packets", "statement": "A message that is created with header fields and a body, encrypted, cut into packets and joined by the receiver, whatever the order in which the packets arrive, gives back the header fields and the body. In particular what a user hands to np_send (payload and attributes) is what the receiver's callback gets: the payload byte for byte, the subject, the uuid and the attributes. The receiver reads no memory outside of the message.", "quantifier": "all payloads, attributes, bodies, header values, ciphers, orders of the packets", "why_tests_cant": "All lengths modulo the chunk size, all orders of arrival and all nested values; what lies behind the message in memory cannot be fixed by a test.", "anchors": ["src/np_message.c:_np_message_create", "src/np_message.c:_np_message_serialize_chunked", "src/np_message.c:_np_message_deserialize_chunks", "src/np_message.c:_np_message_readbody", "src/core/np_comp_node.c:_np_node_build_network_packet", "src/neuropil.c:np_send_to", "src/neuropil.c:__np_receive_callback_converter", "src/np_dendrit.c:_np_in_callback_wrapper"]}
{"id": "C34", "title": "Reference counted objects are freed exactly when the last reference goes", "statement": "For any history of new/ref/unref by one thread, an object with outstanding references is never recycled, it is recycled exactly once when the count returns to zero, the accounting of used objects is exact, and an object handed out by the allocator is not in use by anybody else.", "quantifier": "all histories", "why_tests_cant": "Unbounded histories.", "anchors": ["src/np_memory.c:np_memory_new", "src/np_memory.c:np_memory_free", "src/np_memory.c:np_memory_ref_obj", "src/np_memory.c:np_memory_unref_obj"]}
{"id": "C35", "title": "Reference counting is safe under concurrency", "statement": "For all interleavings of threads that only use references they own, no object that is owned by a thread is ever on a free list.", "quantifier": "all interleavings of any number of threads", "why_tests_cant": "The window between the counter decrement and the recycling check is a few instructions.", "anchors": ["src/np_memory.c:np_memory_unref_obj", "src/np_memory.c:np_memory_free", "src/np_memory.c:np_memory_new"]}
{"id": "C36", "title": "Only unexpired, correctly signed tokens are valid", "statement": "A token is reported valid only if it has the expected type, its validity period covers the current time, and (for foreign tokens) both signatures verify under the token's own public key.", "quantifier": "all tokens, clock values, signature oracles", "why_tests_cant": "Security property over all forged inputs.", "anchors": ["src/np_aaatoken.c:_np_aaatoken_is_valid"]}
{"id": "C37", "title": "A token naming an issuer is accepted only if that issuer signed it", "statement": "Verification of a token against an issuer token succeeds only if the issuer fingerprint matches, the issuer token is valid and authenticated, and the issuer's key signed the token.", "quantifier": "all tokens and issuer tokens, all adversarial attribute contents", "why_tests_cant": "Security property over all forged inputs.", "anchors": ["src/np_aaatoken.c:_np_aaatoken_verify_signature"]}
{"id": "C38", "title": "Token signatures cover all identity fields unambiguously", "statement": "Two tokens that differ in an identity field (realm, issuer, subject, audience, key, times, uuid) are hashed from different byte strings.", "quantifier": "all pairs of tokens", "why_tests_cant": "Needs all pairs; collisions by field boundary shifting.", "anchors": ["src/np_aaatoken.c:_np_aaatoken_get_hash"]}
{"id": "C39", "title": "User token and internal token conversions are lossless", "statement": "Converting an exported user token into the internal form and back preserves every field.", "quantifier": "all tokens with terminated subject", "why_tests_cant": "All field values.", "anchors": ["src/np_aaatoken.c:np_aaatoken4user", "src/np_aaatoken.c:np_user4aaatoken"]}
{"id": "C40", "title": "Message life time", "statement": "A message is treated as expired exactly when its configured time to live has passed since it was created, stays expired from then on, and the time to live written into a message is at least one second and such that the initial attempt and all configured retries together stay within the time to live the user configured for the subject.", "quantifier": "all creation times, time-to-live values, retry counts and clock readings", "why_tests_cant": "expiry depends on every combination of clock value, ttl and retry count; the rounding of the per-attempt ttl only goes wrong for particular quotients", "anchors": ["src/np_message.c:_np_message_is_expired", "src/np_message.c:_np_message_get_expiry", "src/np_message.c:_np_message_create"]}
{"id": "C41", "title": "A valid token can be put to use", "statement": "np_use_token accepts a token handed out by another node exactly if that token is valid (signatures verify, not expired); a valid identity, node, message intent or accounting token is not refused.", "quantifier": "all tokens, all clock readings, all signature schemes", "why_tests_cant": "Acceptance must hold for every valid token; a test tries a handful of tokens, and a rejection there could be any of many reasons.", "anchors": ["src/neuropil.c:np_use_token", "src/np_aaatoken.c:np_user4aaatoken", "src/np_aaatoken.c:_np_aaatoken_is_valid"]}
{"id": "C42", "title": "Rate limit per peer", "statement": "Between two resets of the traffic counters at most the configured number of packets of one peer (give or take one) are let through, a packet is only dropped if the traffic on its peer's counters exceeds the limit, and no amount or pattern of traffic stops the process.", "quantifier": "all limits, all sequences of packets from all peers and counter resets", "why_tests_cant": "Counters are shared between peers, saturate at 255 and are only partly given back by the reset; the failures need long or specially shaped traffic.", "anchors": ["src/np_network.c:__np_network_module_periodic_capacity_reset", "src/np_network.c:_np_network_read", "src/util/np_bloom.c:_np_counting_bloom_check_r", "src/util/np_bloom.c:_np_counting_bloom_clear_r"]}
{"id": "C43", "title": "A message is not processed twice", "statement": "A single-part message that was handed on is discarded when it arrives again, whatever other messages, cleanup runs and adjustments of the duplicate filter happen in between, until the filter has aged by its full width; this holds for messages arriving on different threads too, and no amount of messages stops the node.", "quantifier": "all message ids, all histories of arrivals, cleanups and resizings, all interleavings of two threads", "why_tests_cant": "Depends on every hash value and on the interleaving of the check and the insertion.", "anchors": ["src/core/np_comp_alias.c:_np_alias_cleanup_msgpart_cache", "src/core/np_comp_alias.c:_np_alias_check_msgpart_cache", "src/util/np_bloom.c:_np_decaying_bloom_decay", "src/util/np_bloom.c:_np_decaying_bloom_check"]}
{"id": "C44", "title": "Messages of a peer are processed only after it was accepted", "statement": "The content of a received message (user data, pheromones, discovery, forwarding, and every network message other than join and leave) is processed for a connection only after the user's authenticate callback accepted a token presented for that connection; and the callback is only asked about valid identity or node tokens not seen before.", "quantifier": "all sequences of events on all keys, all orders of delivery (also nested), all answers of callbacks, clocks and filters", "why_tests_cant": "the guarantee depends on the whole transition table and on every order in which handshake, join, authentication and data events may arrive", "anchors": ["src/np_key.c:np_key_states", "src/core/np_comp_alias.c", "src/core/np_comp_identity.c:__np_identity_handle_authn", "src/np_statemachine.c:np_util_statemachine_invoke_auto"]}
{"id": "C45", "title": "A removed key handles no further events", "statement": "Once a key (peer, connection, identity or subject) was removed, an event that reaches the old key object afterwards has no effect at all.", "quantifier": "all sequences of events, all orders of delivery (also nested)", "why_tests_cant": "removal can happen at any point relative to events that are already on their way", "anchors": ["src/np_key.c:np_key_states", "src/np_key.c:__np_key_destroy", "src/np_statemachine.c:np_util_statemachine_invoke_auto"]}
{"id": "C46", "title": "What is sent to a peer before it was accepted", "statement": "Only handshake messages are sent unencrypted; before the authenticate callback accepted the token of a node nothing but handshake, join and leave messages is sent to that node.", "quantifier": "all sequences of events on all keys, all orders of delivery (also nested)", "why_tests_cant": "needs every order of outgoing messages and authentication events", "anchors": ["src/np_key.c:np_key_states", "src/core/np_comp_node.c:__np_node_send_direct", "src/core/np_comp_node.c:__np_node_send_encrypted", "src/core/np_comp_node.c:__is_node_identity_authn"]}
{"id": "C47", "title": "A connection that was shut down receives nothing more", "statement": "After a connection was shut down no data arriving on it is decrypted, processed, forwarded or answered any more, provided events on one key are handled one after the other.", "quantifier": "all sequences of events, all orders of delivery in which no event is handled from within the handling of another event on the same key", "why_tests_cant": "data may already be on its way when the shutdown arrives", "anchors": ["src/core/np_comp_alias.c:__np_alias_shutdown", "src/core/np_comp_alias.c:__is_alias_invalid", "src/np_key.c:np_key_states"]}
{"id": "C48", "title": "Subjects: disabling, and messages without session", "statement": "From the moment a subject was disabled until it is enabled again no message, intent or configuration change is handled for it; and a message of a user subject is handled, inbound or outbound, only with an established session and below the message threshold.", "quantifier": "all sequences of events on all keys, all orders of delivery (for the first part: events on one key handled one after the other)", "why_tests_cant": "messages arrive at any time relative to the enable and disable requests", "anchors": ["src/np_key.c:np_key_states", "src/core/np_comp_msgproperty.c:__is_sender_token_available", "src/core/np_comp_msgproperty.c:__is_receiver_token_available", "src/core/np_comp_msgproperty.c:__np_property_lifecycle_set"]}
{"id": "C49", "title": "Trees never degenerate", "statement": "After any history of tree operations, with any keys, no operation follows a missing link or aborts, and a search in a tree of n entries takes at most 2*log2(n+1) comparisons.", "quantifier": "all histories, all keys of all kinds, also mixed", "why_tests_cant": "Every rebalancing case in every tree shape; unbounded histories.", "anchors": ["include/tree/tree.h:RB_GENERATE_INSERT_COLOR, RB_GENERATE_REMOVE_COLOR, RB_GENERATE_REMOVE", "src/util/np_tree.c"]}
{"id": "C50", "title": "Serialised trees come back unchanged", "statement": "Writing a tree with np_serializer_write_map and reading the bytes into an empty tree with np_serializer_read_map yields a tree with exactly the same keys, values and value types, at every level of nesting, and consumes exactly the bytes written.", "quantifier": "all trees, built by any history of operations, with values of any supported type and any nesting; any bytes following", "why_tests_cant": "Unboundedly many trees and values; the boundaries of every integer width and length field matter.", "anchors": ["src/util/s11n_impl/np_serialize_qcbor.c:np_serializer_write_map, np_serializer_read_map, __np_tree_serialize_write_type, __np_tree_deserialize_read_type"]}
{"id": "C51", "title": "The key cache is a map that keeps its keys alive", "statement": "For each id there is at most one key object; asking for a key (creating it if needed) always gives the same object until it is removed, afterwards a new one; a listing is complete and ordered; every key in the cache is kept alive by a reference of the cache; the search tree stays balanced.", "quantifier": "all histories of create, find, exists, remove, list and release calls and all ids", "why_tests_cant": "Needs all insertion and deletion orders of a balanced tree and all reference histories.", "anchors": ["src/np_keycache.c:_np_keycache_find_or_create", "src/np_keycache.c:_np_keycache_remove", "src/np_keycache.c:_np_keycache_find", "src/np_keycache.c:_np_keycache_get_all", "include/tree/tree.h"]}
{"id": "C52", "title": "Periodic maintenance reaches every key", "statement": "The periodic job that checks the state of all keys (connections, identities, subjects) in portions takes up every key in a bounded number of runs, wherever it stopped before.", "quantifier": "all contents of the key cache, all positions of the job", "why_tests_cant": "Depends on the number of keys, the position of the job and the keys that come and go.", "anchors": ["src/np_keycache.c:_np_keycache_exists_state"]}
{"id": "C53", "title": "The next hop is a known neighbour and prefix routing makes progress", "statement": "The search for the way to an id returns at most one neighbour, which is in the routing table or the leafset and is chosen as documented: the closest neighbour inside the range of the leafset, otherwise the neighbour of least cost among those sharing more digits with the id than the own id, otherwise the best usable one of the nearest row above; as long as each node on the way knows a usable neighbour sharing more digits, a message reaches its end after at most 64 hops and visits no node twice.", "quantifier": "all own ids, histories of joins and leaves, target ids, counts, latencies and link qualities, and all paths", "why_tests_cant": "It is about every table that any history can leave behind and about chains of nodes with unrelated tables.", "anchors": ["src/np_route.c:_np_route_lookup", "src/np_route.c:_np_route_row_lookup", "src/np_keycache.c:_np_keycache_find_closest_key_to", "src/np_keycache.c:_np_keycache_sort_keys_cpm"]}
{"id": "C54", "title": "A stranger's datagram does not stop the node", "statement": "Any datagram that arrives at the socket of a node before a peer is authenticated is either ignored, read as a handshake or refused; none makes the node abort or touch memory it does not own.", "quantifier": "all datagrams", "why_tests_cant": "All contents of 1046 bytes.", "anchors": ["src/core/np_comp_identity.c:__np_extract_handshake", "src/np_message.c:_np_message_add_chunk", "src/np_message.c:_np_message_deserialize_chunks", "src/np_message.c:_np_message_readbody"]}
{"id": "C55", "title": "Settings of a data channel are kept and take effect", "statement": "Settings given to np_set_mx_properties are what np_get_mx_properties returns afterwards, a zero meaning that the previous value stays; they are the settings messages are sent and received with from then on, until the next call.", "quantifier": "all histories of calls on a channel and all legal settings", "why_tests_cant": "Sending, listening and configuring create the two sides of a channel in every order, and each order shares or copies the settings differently.", "anchors": ["src/neuropil.c:np_set_mx_properties", "src/neuropil.c:np_get_mx_properties", "src/core/np_comp_msgproperty.c:np_msgproperty_from_user", "src/core/np_comp_msgproperty.c:np_msgproperty4user"]}
{"id": "C56", "title": "Waiting messages are kept, bounded and released in order", "statement": "A message that cannot be handled yet waits in a cache of at most cache_size messages; a full cache drops the new message or the one the policy names; no message is lost or doubled; when the sessions exist, the waiting messages leave in the order of the policy.", "quantifier": "all histories of messages, checks, answers, changes of settings and available sessions", "why_tests_cant": "Which messages wait depends on the interleaving of arrivals, sessions and expiry.", "anchors": ["src/core/np_comp_msgproperty.c:__np_property_add_msg_to_cache", "src/core/np_comp_msgproperty.c:_np_msgproperty_check_msgcache", "src/core/np_comp_msgproperty.c:_np_msgproperty_check_msgcache_for", "src/core/np_comp_msgproperty.c:_np_msgproperty_cleanup_cache"]}
{"id": "C57", "title": "max_parallel limits the messages under way and never stops a channel", "statement": "At most max_parallel messages of a channel are under way without an answer, and when they are answered the next ones are sent.", "quantifier": "all histories of messages, answers and changes of settings", "why_tests_cant": "It is a counter changed in five handlers; only the invariant over all histories says what it counts.", "anchors": ["src/core/np_comp_msgproperty.c:_np_msgproperty_threshold_increase", "src/core/np_comp_msgproperty.c:_np_msgproperty_threshold_breached", "src/core/np_comp_msgproperty.c:__np_property_redelivery_set", "src/core/np_comp_msgproperty.c:__np_response_handler_set"]}
{"id": "C58", "title": "A message is given to the receiver's callback at most once", "statement": "However often a message reaches a receiver, within its time to live, its callback gets it at most once, and no other message can take its place.", "quantifier": "all histories of arrivals, copies, redeliveries, checks and changes of settings", "why_tests_cant": "Copies can arrive before, between and after any cleanup of the list of known messages.", "anchors": ["src/core/np_comp_msgproperty.c:_np_msgproperty_check_msg_uniquety", "src/core/np_comp_msgproperty.c:_np_msgproperty_job_msg_uniquety", "src/core/np_comp_msgproperty.c:__np_property_handle_in_msg"]}
{"id": "C61", "title": "A disabled channel is silent and can be enabled again", "statement": "After np_mx_properties_disable the channel neither sends nor receives messages; after np_mx_properties_enable it works with the settings it had.", "quantifier": "all histories of calls", "why_tests_cant": "Any call may come in between.", "anchors": ["src/neuropil.c:np_mx_properties_disable", "src/neuropil.c:np_mx_properties_enable"]}
{"id": "C59", "title": "Only accepted peers get the keys of a channel", "statement": "A peer can read or write messages of a data channel only if one of its intents was valid, fulfilled policy and audience, and was accepted by an authorization callback; an accepted peer does get its session.", "quantifier": "all histories of intents, decisions, checks, own intents, announcements and key messages, with any answers of the callbacks", "why_tests_cant": "Intents, answers and checks can arrive in any order; the attacker chooses what an intent contains.", "anchors": ["src/core/np_comp_intent.c:_np_intent_add_sender", "src/core/np_comp_intent.c:_np_intent_add_receiver", "src/core/np_comp_intent.c:_np_intent_update_sender_session", "src/core/np_comp_msgproperty.c:__np_property_handle_intent", "src/core/np_comp_identity.c:__np_identity_handle_authz"]}
{"id": "C60", "title": "The authorization callback decides", "statement": "The callback set with np_set_mx_authorize_cb decides for its channel, the one set with np_set_authorize_cb where no other is set; without a yes nobody is let in, and a yes lets the peer in.", "quantifier": "all histories and all answers of the callbacks", "why_tests_cant": "The three callbacks may answer differently at each question.", "anchors": ["src/core/np_comp_identity.c:__np_identity_handle_authz", "src/neuropil.c:np_set_authorize_cb", "src/neuropil.c:np_set_mx_authorize_cb"]}
{"id": "C62", "title": "A peer's access ends with its intent", "statement": "When the intent of a peer expires, its keys are removed after the next checks and it is not shown as partner any more.", "quantifier": "all histories and any set of intents that expire at once", "why_tests_cant": "Depends on what was replaced, renewed or handed over before.", "anchors": ["src/core/np_comp_intent.c:__np_intent_check", "src/core/np_comp_intent.c:_np_intent_update_sender_session", "src/core/np_comp_intent.c:_np_intent_import_session"]}
{"id": "C63", "title": "A session belongs to one peer", "statement": "What is decrypted with the key of a session comes from the peer the session was made with; no other peer can change that key.", "quantifier": "all histories of intents and key messages of several accepted peers", "why_tests_cant": "An accepted peer may send any session id and key.", "anchors": ["src/core/np_comp_intent.c:_np_intent_import_session", "src/core/np_comp_intent.c:_np_intent_update_sender_session", "src/np_dendrit.c:_np_in_callback_wrapper", "src/np_crypto.c:np_crypto_session_encrypt"]}
{"id": "C64", "title": "The address of a node can be used to join it", "statement": "np_get_address gives the own fingerprint with protocol, address and port of the node's first interface; an address is read by a peer as exactly the parts it was made of.", "quantifier": "all addresses, and all histories of np_listen, np_run and np_join before np_get_address", "why_tests_cant": "Depends on which interfaces exist, on the fingerprints that order them and on every text of a host.", "anchors": ["src/neuropil.c:np_get_address", "src/np_legacy.c:np_build_connection_string", "src/np_node.c:__get_node_details_from_string", "src/np_node.c:_np_node_decode_from_str", "src/np_keycache.c:_np_keycache_find_interface"]}
{"id": "C65", "title": "A node listens where it was told to, and only there", "statement": "After np_listen returned np_ok the node listens with the given protocol on the given address and port; it never listens on a port that was not given to np_listen.", "quantifier": "all histories of calls and all answers of the operating system", "why_tests_cant": "Order of calls, addresses of the machine and failing system calls are unbounded.", "anchors": ["src/neuropil.c:np_listen", "src/np_legacy.c:_np_listen_safe", "src/core/np_comp_identity.c:__np_create_identity_network"]}
{"id": "C66", "title": "A join goes to the named node", "statement": "np_join sends a join to the node with the fingerprint, protocol, host and port of the address, to no other; an address it cannot read is reported.", "quantifier": "all texts of addresses, all nodes already known, all answers of the name service", "why_tests_cant": "Any text can be given; what happens depends on all nodes known before.", "anchors": ["src/neuropil.c:np_join", "src/np_legacy.c:np_send_join", "src/np_keycache.c:_np_keycache_find_by_details", "src/np_node.c:_np_node_decode_from_str"]}
{"id": "C67", "title": "Reachability of a peer follows from the addresses", "statement": "Before a join the library decides from own and remote address if the peer can be reached: peers in the same private block and public peers can; the decision is defined for every pair of addresses.", "quantifier": "all pairs of addresses and all sets of own interfaces", "why_tests_cant": "2^64 pairs of IPv4 addresses, all sets of interfaces.", "anchors": ["src/np_glia.c:_np_glia_node_can_be_reached", "src/np_network.c:_np_network_is_private_address", "src/np_network.c:_np_network_count_common_tuples", "src/np_network.c:_np_network_is_loopback_address"]}
{"id": "C68", "title": "Packets reach the partner of a connection unchanged, and only what the partner sent is accepted", "statement": "Two nodes that exchanged handshakes read what the other sends; a packet that is forwarded over any path of such connections arrives with the content it was sent with; a packet accepted from a peer was sent by that peer to this node, once.", "quantifier": "all messages, all keys and priorities, all paths and orders of arrival, everything that can arrive from the network", "why_tests_cant": "Keys, paths and the packets an attacker may inject are unbounded.", "anchors": ["src/np_crypto.c:np_crypto_session", "src/np_crypto.c:np_crypto_session_encrypt", "src/np_crypto.c:np_crypto_session_decrypt", "src/core/np_comp_alias.c:__np_create_session", "src/core/np_comp_alias.c:__np_alias_decrypt", "src/core/np_comp_node.c:__np_node_send_encrypted", "src/core/np_comp_node.c:_np_node_build_network_packet", "src/np_axon.c:_np_out_forward"]}
{"id": "C69", "title": "No two packets of a connection are encrypted with the same key and nonce", "statement": "The nonces of all packets that a node encrypts for one connection are pairwise different.", "quantifier": "all sequences of messages over a connection", "why_tests_cant": "A repeated nonce shows no fault at the receiver; sequences of messages are unbounded.", "anchors": ["src/np_message.c:_np_message_create", "src/np_message.c:_np_message_encrypt_payload", "src/np_message.c:_np_message_serialize_chunked", "src/core/np_comp_node.c:_np_node_build_network_packet", "src/core/np_comp_node.c:__np_node_send_encrypted"]}
{"id": "C70", "title": "Sender and receivers of a channel agree on keys", "statement": "Whenever the sender of one node and the receiver of another node both hold a key for messages addressed to an id (all receivers of a sender, or one pair), it is the same key: what one encrypts the other decrypts. A receiver whose intent a sender gets is told the key of the sender, also for later intents of that sender.", "quantifier": "all numbers of nodes, all histories of intents gained, lost, renewed, key messages sent and delivered late, repeatedly or out of order", "why_tests_cant": "Key agreement depends on the order in which intents, renewals and key messages arrive at every node; tests see few orders of two nodes.", "anchors": ["src/core/np_comp_intent.c:_np_intent_update_sender_session", "src/core/np_comp_intent.c:_np_intent_update_receiver_session", "src/core/np_comp_intent.c:_np_intent_update_session", "src/core/np_comp_intent.c:_np_intent_import_session", "src/np_dendrit.c:_np_in_callback_wrapper", "src/np_axon.c"]}
{"id": "C71", "title": "Keys of a channel are held only by the nodes they are for", "statement": "The keys two nodes agree on are held by no third node; the key of a sender is held only by nodes whose intent the sender got; a node whose intent the sender lost gets none of the keys made afterwards.", "quantifier": "all histories of intents gained, lost and renewed by any number of nodes", "why_tests_cant": "A leaked key is not visible in any result of a call; the histories are unbounded.", "anchors": ["src/core/np_comp_intent.c:_np_intent_update_receiver_session", "src/core/np_comp_intent.c:_np_intent_update_session", "src/core/np_comp_intent.c:_np_intent_import_session", "src/core/np_comp_msgproperty.c"]}
{"id": "C72", "title": "An acknowledgement settles the message it names, and no other", "statement": "When an acknowledgement arrives, the message it names (and only this one) is reported as answered at the next check and is no longer sent again; an acknowledgement of an unknown message changes nothing, and no acknowledgement stops the node.", "quantifier": "all histories of messages and pings sent, acknowledgements received with any content, and checks", "why_tests_cant": "The effect depends on the shape of the tree of all messages on their way; tests have one message on its way.", "anchors": ["src/np_dendrit.c:_np_in_ack", "src/util/np_tree.c:np_tree_find_str", "src/util/np_tree.c:_np_tree_elem_cmp", "src/core/np_comp_msgproperty.c:__np_response_handler_set", "src/core/np_comp_msgproperty.c:_np_msgproperty_cleanup_response_handler"]}
{"id": "C73", "title": "An unacknowledged message is sent again at fixed intervals, and every wait ends", "statement": "A message that wants an acknowledgement is sent with the time stamps of its creation and of each following interval (time to live divided by retries plus one), each once, until it is reported as answered or late; after that it is never sent again. Each message and ping is reported exactly once, as late only after its time to live, and always some time after it.", "quantifier": "all histories of messages, pings, acknowledgements, checks at any times", "why_tests_cant": "Number and times of transmissions depend on how checks, acknowledgements and other messages interleave over unbounded time.", "anchors": ["src/np_message.c:_np_message_add_response_handler", "src/np_axon.c:_np_out_callback_wrapper", "src/core/np_comp_msgproperty.c:__np_property_redelivery_set", "src/core/np_comp_msgproperty.c:__np_msgproperty_redeliver_messages", "src/core/np_comp_msgproperty.c:_np_msgproperty_cleanup_response_handler"]}
{"id": "C74", "title": "Over a TCP connection packets arrive whole and in order however the stream is cut", "statement": "Whatever parts of a packet the operating system accepts or delivers at a time, the receiving node hands on exactly the packets the sending node queued, in order, each once.", "quantifier": "all sequences of queued packets, all answers of the operating system to reads and writes", "why_tests_cant": "A loopback test never splits a packet; segmentation and back pressure are chosen by the network.", "anchors": ["src/np_network.c:_np_network_send_data", "src/np_network.c:_np_network_write", "src/np_network.c:_np_network_read"]}
{"id": "C75", "title": "Datagrams of one sender do not affect those of another, and no datagram ends listening", "statement": "Every full-size datagram that arrives is handed on alone, under its own sender's address, in order; datagrams of any other size are ignored; the node listens until it is told to stop.", "quantifier": "all sequences of datagrams of any size from any senders, interleaved with reads, starts and stops", "why_tests_cant": "The number of possible sequences of datagrams from strangers is unbounded; tests send only datagrams the node itself has built.", "anchors": ["src/np_network.c:_np_network_read", "src/np_network.c:_np_network_start", "src/np_network.c:_np_network_stop", "src/np_network.c:_np_network_disable", "src/np_network.c:_np_network_enable", "src/core/np_comp_identity.c:__np_create_identity_network"]}
{"id": "C76", "title": "A token arrives as it was sent", "statement": "What another node makes of a token that was encoded, serialised, sent and decoded has the same id, realm, issuer, subject, audience, times, type, public key, signatures and attributes; a token the node signed itself is accepted by every other node until it expires.", "quantifier": "all tokens with any texts, times, keys and attributes, and any receiving node", "why_tests_cant": "Tests send a few tokens with texts of ordinary length; the loss depends on the exact contents of each field.", "anchors": ["src/np_aaatoken.c:_np_aaatoken_encode", "src/np_aaatoken.c:np_aaatoken_decode", "src/np_token_factory.c:np_token_factory_read_from_tree"]}
{"id": "C77", "title": "No message of another node stops a node", "statement": "Whatever another node puts into a handshake, join, leave, update, available, piggy or pheromone message, the node that receives it goes on running.", "quantifier": "all message bodies, of peers and of strangers", "why_tests_cant": "The bodies are chosen by an adversary; tests only send bodies that the library itself has built.", "anchors": ["src/np_dendrit.c:_np_in_join", "src/np_dendrit.c:_np_in_leave", "src/np_dendrit.c:_np_in_update", "src/np_dendrit.c:_np_in_available_sender", "src/np_dendrit.c:_np_in_available_receiver", "src/np_dendrit.c:_np_in_handshake", "src/np_dendrit.c:_np_in_pheromone", "src/np_node.c:_np_node_decode_multiple_from_jrb", "src/np_token_factory.c:np_token_factory_read_from_tree"]}
{"id": "C78", "title": "A node joins and leaves only for itself", "statement": "A join or leave that a node accepts was made by the node whose tokens are in it, and takes effect only for that node and the connection it came over.", "quantifier": "all join and leave messages, over any connection, with any tokens", "why_tests_cant": "An attack needs a dishonest node that repeats tokens of others; the tests only have honest nodes.", "anchors": ["src/np_dendrit.c:_np_in_join", "src/np_dendrit.c:_np_in_leave", "src/core/np_comp_node.c:__is_shutdown_event", "src/core/np_comp_node.c:__is_node_authn", "src/core/np_comp_identity.c:__np_identity_handle_authn"]}
{"id": "C79", "title": "The number of threads is the configured one", "statement": "np_run starts as many threads as the settings say (n_threads), exactly once in the life of a node, whatever the number and whichever application threads call np_run; reading the network, writing to it and file input/output are each served by exactly one thread or periodic job.", "quantifier": "all values of n_threads; all histories and interleavings of np_run and np_destroy calls of any number of application threads", "why_tests_cant": "needs all 2^32 settings and all interleavings of concurrent callers; a test starts a handful of threads from one caller", "anchors": ["src/np_threads.c: np_threads_start_workers", "src/neuropil.c: np_run", "include/neuropil.h: np_settings.n_threads"]}
{"id": "C80", "title": "np_run runs for the given time", "statement": "np_run(duration) returns at the first check of the clock after the duration has passed, or after the node was shut down, and not before; np_run(0) processes all outstanding events and returns.", "quantifier": "all queues, all durations, all clock readings and all jobs submitted meanwhile", "why_tests_cant": "depends on every sequence of clock readings, lock results and submissions", "anchors": ["src/np_jobqueue.c: np_jobqueue_run_jobs_for, __np_jobqueue_run_jobs_once", "src/neuropil.c: np_run"]}
{"id": "C81", "title": "Shutdown callbacks are called once, in order, before the node leaves", "statement": "Every callback registered with np_add_shutdown_cb (which answers np_ok) is called exactly once by np_destroy, in the order of registration and before the other nodes are told that this one leaves.", "quantifier": "all sequences of np_run, np_add_shutdown_cb and np_destroy calls, all numbers of callbacks", "why_tests_cant": "ranges over all call histories, including registrations before the first np_run, NULL callbacks and callbacks that register callbacks", "anchors": ["src/np_shutdown.c: np_shutdown_add_callback, _np_shutdown_run_callbacks, _np_shutdown_init", "src/neuropil.c: np_add_shutdown_cb, np_destroy"]}
{"id": "C82", "title": "np_destroy ends all threads of a node and returns", "statement": "np_destroy returns, whatever the threads of the node are doing at that moment; when it has returned all of them have ended and nothing uses the memory of the node any more.", "quantifier": "all interleavings of the worker, manager and event loop threads with application threads calling np_run and np_destroy", "why_tests_cant": "the failing interleavings are a few instructions wide and no test can enumerate schedules", "anchors": ["src/neuropil.c: np_destroy, np_run", "src/np_threads.c: np_threads_shutdown_workers, __np_thread_status_wrapper", "src/np_jobqueue.c: __np_jobqueue_run_jobs, _np_jobqueue_check"]}
{"id": "C83", "title": "The application gets what was sent", "statement": "The bytes given to np_send on one node are the data the receive callback of the other node gets, unchanged, together with the subject, the id of the sender and the attributes that were set for messages; a message never stops the receiver.", "quantifier": "all messages of any length, all ids, all histories of setting attributes (any keys and values, any inheritance), all bodies a peer can send", "why_tests_cant": "ranges over all byte strings and all combinations of attributes, including reserved keys and totals that exceed a message", "anchors": ["src/neuropil.c: np_send, np_send_to, __np_receive_callback_converter", "src/neuropil_attributes.c: np_set_ident_attr_bin, _np_attributes_init", "src/neuropil_data.c: np_set_data, np_merge_data, np_get_data"]}
{"id": "C84", "title": "np_send answers np_ok only for messages it will send", "statement": "If np_send answers np_ok the message was handed over for sending, exactly once; otherwise nothing was sent and the answer says why (np_invalid_argument for messages longer than supported).", "quantifier": "all messages, all states of the queue reachable by any history of submissions and runs, all subjects", "why_tests_cant": "depends on the number of jobs waiting at that moment and on every length of a message", "anchors": ["src/neuropil.c: np_send, np_send_to", "src/np_jobqueue.c: np_jobqueue_submit_event", "include/neuropil.h: documentation of np_send"]}
{"id": "C85", "title": "Receive callbacks run in order and can reject", "statement": "All callbacks added for a subject are called once per message, in the order in which they were added; once a callback returns false the message is rejected and no further callback is called; messages seen before reach none.", "quantifier": "all lists of callbacks, all answers of callbacks, all messages", "why_tests_cant": "ranges over all callback lists and all functions of the application", "anchors": ["src/neuropil.c: np_add_receive_cb, __np_receive_callback_converter", "src/np_legacy.c: np_add_receive_listener", "src/core/np_comp_msgproperty.c: __np_property_handle_in_msg", "include/neuropil.h: documentation of np_receive_callback"]}
{"id": "C86", "title": "A text names one subject", "statement": "np_generate_subject and np_get_id give the same id for the same text on every node and different ids for different texts or sequences of texts (as far as the hash function does); a length of zero stands for a null-terminated text; np_regenerate_subject finds the names of the subjects of the node itself again, whichever threads call it, and never writes outside the buffer.", "quantifier": "all texts, sequences of texts, previous contents of the field, all interleavings of callers, all buffer sizes", "why_tests_cant": "ranges over all texts and sequences and over interleavings of unsynchronised first calls", "anchors": ["src/neuropil.c: np_get_id, np_generate_subject, np_regenerate_subject, np_id_str", "src/np_dhkey.c: _np_dhkey_generate_hash, _np_dhkey_xor", "include/neuropil.h: documentation of np_get_id and np_generate_subject"]}
{"id": "C87", "title": "A peer is kept while it answers", "statement": "A peer that was accepted, keeps its place in the leafset and answers at least 8 of any 31 questions in a row is never given up and never told that the node leaves; one that answers 7 or less (in particular none of the last 24) is given up by the third check that finds no new answer, once it is older than 97 s. While it answers it is asked again at the latest after 94 s and never within 24 s; it is in the routing table only after an answer and leaves it after a failure with less than 24 of 31 answers; at most one leave message is sent; the latency used for routing lies between the smallest and the largest time measured.", "quantifier": "all histories of answers, timeouts, checks, shutdowns and changes of the routing tables, at all times", "why_tests_cant": "ranges over all histories of a peer, over minutes and hours of real time", "anchors": ["src/core/np_comp_node.c: __np_node_handle_response, __np_node_update, __has_to_leave, __is_node_invalid, __np_node_send_shutdown", "src/np_node.c: _np_node_t_new", "src/np_key.c: transitions of IN_USE_NODE", "include/np_settings.h: BAD_LINK, GOOD_LINK, BAD_LINK_REMOVE_GRACETIME, NP_NODE_SUCCESS_WINDOW"]}
{"id": "C88", "title": "Connecting is tried again and ends", "statement": "While a peer has not been accepted the handshake is sent again every 5 s and not more often; a peer that is not accepted is given up at the first check after 97 s and, without a shutdown, not before; a peer that is accepted in that time is not given up for having been slow.", "quantifier": "all histories of events before the acceptance of a peer, at all times", "why_tests_cant": "ranges over all histories and timings of connecting", "anchors": ["src/core/np_comp_node.c: __np_node_handle_completion, __np_node_upgrade, __np_node_update_token, __is_node_invalid", "src/np_key.c: transitions of IN_SETUP_NODE", "src/np_msgproperty_init.c.part: ttl of handshake and join"]}
{"id": "C89", "title": "Two things never get the same id", "statement": "Messages, tokens, events and objects that are made get ids (uuid); two of them have the same id only if they are the same thing. In particular a receiver that looks for duplicates does not lose a message because another one has its id.", "quantifier": "all sorts of things, all times, all nodes", "why_tests_cant": "ranges over all pairs of ids made anywhere at any time", "anchors": ["src/np_util.c: np_uuid_create", "src/np_message.c: np_message_create", "src/np_aaatoken.c: _np_aaatoken_t_new", "src/np_time.c"]}
{"id": "C90", "title": "The identity given is the identity used", "statement": "An identity given to np_use_identity before the node runs is the identity of the node: np_ok says that it was taken, it keeps its fingerprint, keys and attributes, is bound to the node in both directions, and the token shown to others is this identity without its secret key, accepted until it expires. While the node runs np_invalid_operation is returned and nothing changes.", "quantifier": "all identities and attributes, all keys, every state of the node, all times", "why_tests_cant": "ranges over all identities, attribute blocks and histories of calls", "anchors": ["src/neuropil.c: np_use_identity", "src/np_legacy.c: _np_set_identity", "src/core/np_comp_identity.c: __is_identity_aaatoken, __np_set_identity", "src/np_token_factory.c: np_token_factory_get_public_ident_token"]}
{"id": "C91", "title": "Intents of a node are accepted by others, and only for their time", "statement": "For every channel a node can issue an intent; it names the identity of the node as issuer, carries its public key and not the secret one, says on which node it runs, starts now, ends with the ttl or with the identity, whichever is earlier; every node that gets it unchanged accepts it until then and not later, and finds the signature of the identity in it.", "quantifier": "all identities, channels (subject, audience, mep type, ack mode, max_parallel), attributes and times", "why_tests_cant": "ranges over all settings of channels, all attribute blocks and all times", "anchors": ["src/np_token_factory.c: __np_token_factory_derive, _np_token_factory_new_message_intent_token", "src/np_aaatoken.c: _np_aaatoken_set_signature, _np_aaatoken_update_attributes_signature, np_aaatoken_set_partner_fp, _np_aaatoken_is_valid, _np_aaatoken_verify_signature"]}
{"id": "C92", "title": "Attributes set by the application arrive", "statement": "Attributes set for all intents, for all identities and for one channel are found, with their values, in each intent of the node and in its identity token; a setting that cannot be kept is refused when it is made.", "quantifier": "all attribute blocks, names and values; all channels", "why_tests_cant": "ranges over all contents of four attribute blocks", "anchors": ["src/neuropil_attributes.c: np_set_ident_attr_bin, np_set_mxp_attr_bin", "src/np_token_factory.c: _np_token_factory_new_message_intent_token, np_token_factory_get_public_ident_token", "src/core/np_comp_msgproperty.c: _np_msgproperty_upsert_token"]}
{"id": "C93", "title": "Callbacks of one channel run one at a time", "statement": "The receive callbacks of a channel never run in two threads at the same time: the next one of the channel is called only after the one before has returned. When all messages are delivered, every callback has returned and no lock is held.", "quantifier": "all channels, messages, callbacks (with the calls they make), numbers of threads, and schedules", "why_tests_cant": "ranges over all interleavings of all threads", "anchors": ["src/np_key.c: _np_key_handle_event", "src/np_threads.c: _np_threads_mutex_lock, _np_threads_mutex_unlock", "include/np_threads.h: _LOCK_ACCESS", "src/core/np_comp_msgproperty.c: __np_property_handle_in_msg"]}
{"id": "C94", "title": "Callbacks can call the library", "statement": "A receive callback can call np_send, np_add_receive_cb and np_has_receiver_for for any channel; whatever the callbacks of all channels call and however the threads interleave, every message is delivered in the end: the threads never block each other for good.", "quantifier": "all channels with their roles, all callbacks, numbers of threads, and schedules", "why_tests_cant": "a deadlock needs one particular interleaving of threads", "anchors": ["src/neuropil.c: np_send_to, np_add_receive_cb, np_has_receiver_for", "src/np_legacy.c: np_add_receive_listener", "src/core/np_comp_msgproperty.c: np_msgproperty_register, __np_property_handle_in_msg", "src/np_key.c: _np_key_handle_event", "src/np_eventqueue.c: __np_event_runtime_start_with_event"]}
{"id": "C95", "title": "No peer can stop the node from reading", "statement": "Whatever peers send, whenever they send it and hang up, and however the threads interleave: the node goes on reading from the network; the threads that read and the threads that handle what was read never block each other for good.", "quantifier": "all sequences of packets and hang-ups, all peers, numbers of threads, and schedules", "why_tests_cant": "a deadlock needs one particular interleaving of threads", "anchors": ["src/np_network.c: _np_network_read, _np_network_accept, _np_network_stop, _np_network_start, _np_network_disable", "src/np_evloop.c: _np_event_in_run, _np_event_suspend_loop_in", "src/core/np_comp_alias.c: __np_alias_set, __np_alias_destroy", "src/np_key.c: _np_key_handle_event"]}
{"id": "C96", "title": "Saved keys come back", "statement": "np_identity_save_secretkey stores the keys of an identity so that np_identity_load_secretkey with the same passphrase brings back these keys and their identifier, in any later process, and with another passphrase brings back nothing; a passphrase of zeros is refused; keys are only loaded from a file that was made with the passphrase; saving replaces what was saved before; the file is in the directory given; the working directory of the process does not change; a damaged or foreign file is refused without harm.", "quantifier": "every key pair, passphrase, nonce, directory, content of the file, earlier state of the process and of the structure loaded into", "why_tests_cant": "the failures depend on the state of the process (errno, permissions, working directory) and on contents of files nobody tests; that another passphrase opens nothing is a statement about all passphrases", "anchors": ["framework/identity/np_identity.c:np_identity_save_secretkey", "framework/identity/np_identity.c:np_identity_load_secretkey", "framework/identity/np_identity.c:__write_encrypted", "framework/identity/np_identity.c:__read_encrypted", "src/util/s11n_impl/np_serialize_qcbor.c:np_serializer_write_ed25519"]}
{"id": "C97", "title": "Saved tokens come back", "statement": "A token or identity stored with np_identity_save_token is loaded again by np_identity_load_token with its fingerprint and the passphrase, says of itself what it said before and, if it was an identity, can be used as identity again; with another passphrase, or under the name of another token, nothing is accepted.", "quantifier": "every token that fits the structure, every passphrase, nonce and directory, every later process", "why_tests_cant": "sizes of all fields and optional fields have to fit a fixed buffer; the combination of all fields cannot be enumerated", "anchors": ["framework/identity/np_identity.c:np_identity_save_token", "framework/identity/np_identity.c:np_identity_load_token", "src/util/s11n_impl/np_serialize_qcbor.c:np_serializer_write_nptoken", "src/util/s11n_impl/np_serialize_qcbor.c:np_serializer_read_nptoken"]}
{"id": "C98", "title": "A key store remembers", "statement": "An identity stored with np_keystore_store_identity is known to np_keystore_check_identity, also after the process has been restarted and np_keystore_load_identities has been called on the same directory, which returns np_ok.", "quantifier": "every list of stored identities, every earlier content of the key store's file", "why_tests_cant": "the store is written by a periodic job; that it never works for any list is a statement about all sizes", "anchors": ["framework/identity/np_keystore.c:__np_keystore_save", "framework/identity/np_keystore.c:np_keystore_load_identities", "framework/identity/np_keystore.c:np_keystore_check_identity"]}
{"id": "C99", "title": "Metrics count", "statement": "A metric of a node (prometheus_metric_get) reads as the value it was last set to plus everything added since, however many calls were made and in whatever order with calls for other metrics; a metric that is only added to never goes down; reading does not harm the process.", "quantifier": "every history of calls on every set of metrics, every amount and clock reading", "why_tests_cant": "sums of floats lose increments only after millions of calls; histories and interleavings cannot be enumerated", "anchors": ["framework/prometheus/prometheus.c:prometheus_metric_inc", "framework/prometheus/prometheus.c:prometheus_metric_set", "framework/prometheus/prometheus.c:prometheus_metric_get", "src/np_statistics.c:__np_increment_send_msgs_counter"]}
{"id": "C100", "title": "Rates are what happened in the last interval", "statement": "The rate kept for a metric (network bytes per second) is the amount added since the last measurement divided by the time that passed, from the start of the node on, and it goes to zero when nothing is added any more.", "quantifier": "every amount, every time between measurements, every history of calls", "why_tests_cant": "a rate depends on all earlier calls and clock readings and on rounding", "anchors": ["framework/prometheus/prometheus.c:__prometheus_metric_update_sub_metrics", "framework/prometheus/prometheus.c:prometheus_register_sub_metric_time", "src/np_statistics.c:get_timestamp"]}
{"id": "C101", "title": "Metrics can be exported", "statement": "np_statistics_prometheus_export (and the web page /metrics) returns the name, labels, value and time of every metric, one line for each, without touching other memory and without stopping other threads, whatever metrics, labels, descriptions and values there are.", "quantifier": "every set of metrics, labels, values and descriptions, every number of requests and threads", "why_tests_cant": "whether a write stays in the buffer depends on all lengths together; a write far outside may go unnoticed in a test", "anchors": ["framework/prometheus/prometheus.c:prometheus_format", "framework/prometheus/prometheus.c:prometheus_format_size", "src/np_statistics.c:_np_http_handle_metrics", "src/np_statistics.c:np_statistics_set_node_description"]}
{"id": "C102", "title": "Labels say what was set last", "statement": "After a label of a metric has been set (np_statistics_set_node_description, change of the identity) the metric carries this label exactly once with the new value; its other labels, its value and other metrics stay as they were; the rates of the metric carry it as well.", "quantifier": "every metric with every list of labels, every label", "why_tests_cant": "all combinations of labels present on a metric and its rates", "anchors": ["framework/prometheus/prometheus.c:prometheus_metric_replace_label", "framework/prometheus/prometheus.c:prometheus_metric_add_label", "src/np_statistics.c:_np_statistics_update_prometheus_labels"]}
{"id": "C103", "title": "Attributes are read as they were set", "statement": "An application that reads an attribute of a message or of a token (np_get_msg_attr_bin, np_get_token_attr_bin) gets exactly the bytes the sender set, or is told that there is no such attribute; nothing but the memory it gave for the answer is written.", "quantifier": "every sender, every set of attributes, every key, every configuration and memory given by the receiver", "why_tests_cant": "what a remote sender puts into a message and what the caller's memory looks like range over all values; a write behind the memory may go unnoticed", "anchors": ["src/neuropil_attributes.c:np_get_msg_attr_bin", "src/neuropil_attributes.c:np_get_token_attr_bin", "src/neuropil_data.c:np_get_data"]}
{"id": "C104", "title": "Setting an attribute succeeds or changes nothing", "statement": "Success of setting an attribute for a token or a channel (np_set_ident_attr_bin, np_set_mxp_attr_bin) means that it is set everywhere it was asked for; any other answer means that nothing has changed.", "quantifier": "every token, every channel with one or two sides, every content of the blocks before, every attribute and inheritance", "why_tests_cant": "whether there is room depends on all attributes set before in several blocks at once", "anchors": ["src/neuropil_attributes.c:np_set_ident_attr_bin", "src/neuropil_attributes.c:np_set_mxp_attr_bin", "src/neuropil_data.c:np_set_data"]}
{"id": "C105", "title": "Percent-encoded texts are decoded once", "statement": "The web server hands an encoded part of a request to its users as the text that was encoded: every % with two hexadecimal digits becomes the character with this number, everything else stays; for every request this ends and touches no other memory.", "quantifier": "every text of a request, every content of uninitialised memory", "why_tests_cant": "all texts and all contents of memory; an unset byte is usually zero in a test", "anchors": ["framework/http/urldecode.c:urlDecode", "framework/sysinfo/np_sysinfo.c", "framework/search/np_search.c", "framework/files/file.c"]}
{"id": "C106", "title": "All arguments of a request arrive", "statement": "The arguments of a request to the web server (name=value, separated by &) are handed to the callback with their names and values, none is lost, none is added.", "quantifier": "every list of names and values", "why_tests_cant": "all texts that a client can send", "anchors": ["framework/http/np_http.c:_np_http_query_args"]}
{"id": "C107", "title": "Requests reach their callback and are answered with its status", "statement": "A request to the web server is answered by the callback that was registered for its method and path, and by no other; a request for an unknown path is answered that there is none, whatever is registered; the client is sent the status the callback returned.", "quantifier": "every set of registered callbacks, every request, every status", "why_tests_cant": "sets of registered paths and requests range over all texts; the size of the answer depends on all of them", "anchors": ["framework/http/np_http.c:_np_add_http_callback", "framework/http/np_http.c:_np_http_dispatch", "framework/http/np_http.c:_np_http_write_callback", "framework/http/np_http.h"]}
{"id": "C108", "title": "Messages leave on every trail that is known", "statement": "A message that is sent, or passed on for somebody else, is handed over once and unchanged (apart from the number of hops) for every neighbour over which a receiver of its subject is known to be reachable, never to the node itself, never back to the neighbour it came from, and to nobody else; the answer says whether it was handed over.", "quantifier": "every history of pheromones, every message, every set of known nodes", "why_tests_cant": "depends on the history of everything that was smelled before and on the set of known nodes", "anchors": ["src/np_axon.c:_np_out_default", "src/np_axon.c:_np_out_forward", "src/np_axon.c:__np_axon_send_chunks", "src/np_pheromones.c:_np_pheromone_snuffle"]}
{"id": "C109", "title": "Acknowledgements find their way", "statement": "An acknowledgement is sent to its audience directly if it is a neighbour, else along the trail of the acknowledgements of the audience; no acknowledgement that comes in from the network can stop or crash the node.", "quantifier": "every audience, every state of key cache, routing tables and pheromones", "why_tests_cant": "the audience is chosen by the peer, the trails by all neighbours together", "anchors": ["src/np_axon.c:_np_out_ack", "src/core/np_comp_alias.c:__np_handle_np_forward", "src/np_pheromones.c:_np_pheromone_snuffle_receiver"]}
{"id": "C110", "title": "Announcements follow the trails", "statement": "The announcement that a subject is offered or wanted is handed over to all neighbours over which the other side of the subject is known to be reachable, except the one it came from.", "quantifier": "every history of pheromones, every subject", "why_tests_cant": "depends on the strength of trails after arbitrary histories", "anchors": ["src/np_axon.c:_np_out_available_messages"]}
{"id": "C111", "title": "A message reaches everybody the trails lead to, and its journey ends", "statement": "A message that travels over several nodes reaches every node that is reachable over the trails of its subject, in whatever order the packets arrive, and nobody else; every node passes it on only once, so the number of packets is bounded and the journey ends.", "quantifier": "every network of nodes, every set of trails, every order of arrival", "why_tests_cant": "all networks and all orders of arrival; a cycle of trails needs at least three nodes", "anchors": ["src/core/np_comp_alias.c:__np_handle_np_forward", "src/core/np_comp_alias.c:__np_handle_usr_msg", "src/core/np_comp_alias.c:_np_alias_check_msgpart_cache", "src/np_axon.c:_np_out_forward", "src/np_axon.c:_np_out_default"]}
{"id": "C112", "title": "What is sent is encrypted before it leaves, what is received was decrypted", "statement": "On a channel of an application no message is handed to the network that was not encrypted before, and no callback is called with a message that was not opened with the key of a session before; this holds for every order of calls that set up the channel.", "quantifier": "every subject, every history of np_set_mx_properties, np_send, np_add_receive_cb, np_mx_properties_enable / disable calls and arriving messages", "why_tests_cant": "the list of handlers depends on which call reached the channel first; all orders of calls and all later changes of the settings", "anchors": ["src/core/np_comp_msgproperty.c:_np_msgproperty_create_runtime_info", "src/core/np_comp_msgproperty.c:__np_property_update", "src/np_dendrit.c:_np_in_callback_wrapper"]}
{"id": "C113", "title": "Acknowledgements follow the settings of the channel", "statement": "A receiver acknowledges a message that asks for it if, and only if, the settings of the channel say that the destination acknowledges; changing the settings changes this, and a message sent again because the acknowledgement was lost is acknowledged again.", "quantifier": "every history of calls and arriving messages on a channel", "why_tests_cant": "all orders of settings and callbacks; needs a change of settings between two messages and the loss of an acknowledgement", "anchors": ["src/core/np_comp_msgproperty.c:_np_msgproperty_create_runtime_info", "src/np_dendrit.c:_check_and_send_destination_ack", "src/core/np_comp_msgproperty.c:__np_property_handle_in_msg"]}
{"id": "C114", "title": "Handlers of the node run for the subjects of the node only", "statement": "A message on a channel of an application never runs a handler of the protocol of the node (joining, leaving, routing tables, tokens, pheromones), whatever its subject; and each of the subjects of the protocol runs its own handlers and no others.", "quantifier": "every subject of an application and every history of its channel; all subjects of the protocol", "why_tests_cant": "all subjects; the names are compared up to the length of the shorter text", "anchors": ["src/core/np_comp_msgproperty.c:__load_internal_callback", "src/np_msgproperty_init.c.part:default_msgproperties"]}
{"id": "C115", "title": "An acknowledged message has reached the application", "statement": "If a receiver acknowledges a message, the message is given to the callbacks of the application.", "quantifier": "every history of a channel and every arriving message", "why_tests_cant": "the acknowledgement and the decryption are two steps; all messages, among them those that cannot be decrypted", "anchors": ["src/np_dendrit.c:_check_and_send_destination_ack", "src/np_dendrit.c:_np_in_callback_wrapper", "src/core/np_comp_msgproperty.c:_np_msgproperty_create_runtime_info"]}
{"id": "C116", "title": "Announcements leave a trail back, reach the own channel and go on", "statement": "When the announcement of a receiver (or sender) of a subject comes in from a neighbour, the node knows afterwards that it can reach a receiver (sender) of the subject over this neighbour; the own channel for the other side of the subject gets it, if there is one, just once; and it goes on, once, to all neighbours over which the other side is known to be reachable, except back.", "quantifier": "every history of the pheromone table, every announcement, every neighbour", "why_tests_cant": "all histories of the table (decay, eviction, filters that overlap), and announcements that come in again over another way", "anchors": ["src/core/np_comp_alias.c:__np_handle_np_discovery", "src/np_pheromones.c:_np_pheromone_inhale_target", "src/np_axon.c:_np_out_available_messages"]}
{"id": "C117", "title": "How long a node works on an update is not up to its sender", "statement": "An update about who wants or offers a subject is dealt with in a time that does not depend on the time stamp and life its sender chose; one that is too old to matter is dropped without effect.", "quantifier": "every time stamp (also infinite or not a number), every life, every body, every time of day", "why_tests_cant": "The time stamp and the life are chosen by the neighbour; the loop runs for a long time only for values that no sender of the library makes, and its end depends on the rounding of doubles.", "anchors": ["src/np_dendrit.c:_np_in_pheromone", "src/core/np_comp_alias.c:__is_msgpart_expired"]}
{"id": "C118", "title": "Updates about who wants or offers a subject spread", "statement": "A fresh update about who wants or offers a subject makes the neighbour it came from known as a way to them, and is passed on: once towards the audience and once to every neighbour on a trail there, and not back to the neighbour it came from.", "quantifier": "every history of the pheromone table and of the routing table, every subject, audience and neighbour", "why_tests_cant": "all histories of both tables; the copies that go to the wrong neighbour are not visible in small networks", "anchors": ["src/np_dendrit.c:_np_in_pheromone", "src/np_axon.c:_np_out_pheromone", "src/np_pheromones.c:_np_pheromone_inhale", "src/np_route.c:_np_route_lookup"]}
{"id": "C119", "title": "Messages that come in pieces do not disturb each other", "statement": "A message of several parts is handed on exactly once, exactly when its last part has come and exactly as it was sent, whatever parts of other messages arrive in between and however often the node tidies up; parts that never become complete are dropped when the life of the message is over, and the memory they take is limited.", "quantifier": "every history of parts of any number of messages, in any order, and of tidying up, with every number of neighbours", "why_tests_cant": "all interleavings of many messages and cleanups; what is forgotten depends on the number of neighbours and on the number of cleanups in between", "anchors": ["src/core/np_comp_alias.c:_np_alias_check_msgpart_cache", "src/core/np_comp_alias.c:_np_alias_cleanup_msgpart_cache", "src/np_message.c:_np_message_add_chunk"]}
{"id": "C120", "title": "The callback of a channel is the one that was set last successfully", "statement": "np_set_mx_authorize_cb reports success exactly if the callback is from now on the one that decides who may use the channel; a callback that was set is asked about every peer and its no is final.", "quantifier": "every sequence of calls that open a channel or set a callback, every peer, every pair of callbacks", "why_tests_cant": "all orders of calls; a wrong decision is only seen if the two callbacks disagree about a peer", "anchors": ["src/neuropil.c:np_set_mx_authorize_cb", "src/core/np_comp_identity.c:__np_identity_handle_authz"]}
