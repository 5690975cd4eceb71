{
"C01": ["proved", "Order laws for all present keys and for a missing key against a present one. Comparing two missing keys answers -1 (recorded as a finding)."],
"C02": ["proved", "Also: 256 bit rotation for shifts 1..31 and involution of the opposite point."],
"C03": ["partial", "Symmetry, zero on equal keys and the bound hold. Identity of indiscernibles, the triangle inequality and agreement with the true ring order are refuted by concrete keys."],
"C04": ["proved", ""],
"C05": ["proved", "Little endian memory image; sodium_bin2hex/hex2bin modelled from their documentation."],
"C06": ["proved", ""],
"C07": ["partial", "Exact unless all 256 bits differ; refuted for complementary keys (8 bit accumulator)."],
"C08": ["proved", "Insert and head removal for any strict weak order and capacity up to 32767. Removal from the middle breaks the order (refuted, recorded as a finding; no caller in the code base)."],
"C09": ["proved", "Times are integers (no floating point rounding or NaN). A configured queue size below 511 turns the refusal into a failed assertion (refuted)."],
"C10": ["partial", "Exactly-once delivery holds for all interleavings. 'Never before it is due' holds unless another worker removes a job between the look and the removal; refuted in general with a concrete interleaving."],
"C100": ["partial", "Proved: the rate is within one part in 2^24 of the quotient when measured after whole seconds (1 to 134217), exact for whole quotients; nothing changes within the interval. Refuted: the first rate is measured from 1970, a rate stays when traffic stops."],
"C101": ["partial", "Refuted for every context with metrics of usual size and for every node: export writes outside of the buffer; lock never given back; long or multi-line descriptions. Proved: empty context; the computed size would be enough for values up to 13 digits."],
"C102": ["partial", "Proved: the label is set exactly as given, other labels and metrics stay. Refuted: a rate can carry the label twice."],
"C103": ["partial", "proved: binary attributes of messages with enough memory and of tokens; refuted: the sender's size is copied whatever the memory of the receiver, absent attributes with a used configuration, numbers used as addresses"],
"C104": ["partial", "proved: tokens without inheritance, channels with room; refuted: answer is that of the last block only"],
"C105": ["partial", "proved: termination always; result and memory safety if the unset byte is zero; refuted: any other value of it, encoded percent signs and zero bytes"],
"C106": ["partial", "proved: arguments that all have a value without separators; refuted: arguments without value, = in values"],
"C107": ["partial", "proved: paths up to 124 characters, short tables, all status but two; refuted: longer paths, tables beyond 7935 bytes, 201/202 swapped"],
"C108": ["partial", "Proved with room in the job queue and below 65535 hops, for all histories of pheromones (composed with C29). Refuted for a full job queue and for 65535 hops."],
"C109": ["partial", "Direct neighbours and trails of at least 90/256 proved. Refuted for weaker trails and known nodes outside the tables; an acknowledgement addressed to a key that is no node crashes the node, a trail that only has senders makes the job loop for ever."],
"C11": ["proved", "Pointer level model of SLL, DLL and PLL; any history of operations equals the sequence operations. Clear of a single linked list, find on a priority list and the default comparison are refuted."],
"C110": ["partial", "Proved for trails of at least 52/256; refuted below."],
"C111": ["partial", "Everybody on the trails is reached and nobody else, for every network and every order of arrival; it ends where trails have no cycle, or when the message has expired. Refuted for cycles (circulates) and for nodes with three neighbours (packets multiply)."],
"C112": ["partial", "Proved: nothing leaves unencrypted, for every history; nothing is given unopened if the settings were never virtual. Refuted for a channel that was virtual first and is made public later: messages are given as they came, and nothing it sends leaves."],
"C113": ["partial", "Proved if settings come before the first callback and later settings keep the acknowledgement mode. Refuted: a callback added before the settings, a later change of the mode, and a message sent again."],
"C114": ["proved", "All subjects of applications are texts of 64 hexadecimal digits (subject_text)."],
"C115": ["partial", "Proved for messages that can be opened, on channels that were never virtual. Refuted for messages that cannot be opened: they are acknowledged."],
"C116": ["partial", "Proved: the trail back, for buckets with room and entries that do not have exactly 32 sources when they decay; the own channel; the neighbours it goes on to for trails of strength 52 of 256 and more. Refuted: an announcement that comes again goes on again; a full bucket stops it."],
"C117": ["partial", "Proved with IEEE doubles: every update that is not expired is dealt with in at most 430e9 rounds per entry, and one older than 0.16 s has no effect. The time is up to the sender, though: _refuted gives an unexpired message that takes more than 425e9 rounds."],
"C118": ["partial", "What is learned, who is chosen (one copy towards the audience; all trails but back) is proved for every history. Refuted: the copy for a neighbour on a trail leaves twice, and may go back to where it came from."],
"C119": ["partial", "Proved for all interleavings of parts of other messages and cleanups with fewer than 512 neighbours, if one word of the key of the message differs modulo 8192 from those of the other keys; at most once until the filter forgets the key (16 shifts) or is resized. C119_removed: what tidying up removes. C119_limit_refuted: no limit on the number of waiting messages."],
"C12": ["proved", "All histories of get/add on a table of any size with any keyed hash."],
"C120": ["partial", "C120_decides, C120_result and C120_stays say for every list of calls who decides and when the call succeeds. The full statement is false: C120_no_refuted (a no is overruled by the global callback), C120_replaced_refuted, C120_too_early_refuted."],
"C13": ["proved", "Pointer level model; all histories, all random numbers (except 2^31-1, undefined behaviour in the C code, C13_random_all_ones_refuted), all fresh addresses."],
"C14": ["partial", "Proved for every history of writes, merges and iterations whose entries have a correctly calculated size (C14_store, C14_no_room, C14_merge). Refuted for key or value lengths of 24, values longer than 65535 bytes and the negative numbers -256 and -65536, where the block is corrupted or the call aborts."],
"C15": ["partial", "Proved exact for all entries outside the exceptions of C14 and sufficient for every buffer; refuted for lengths of 24."],
"C16": ["partial", "Proved: without a policy everything is admitted; every attribute set that meets the policy is admitted; the decision equals the bloom filter test of the required items against the attributes, up to the capacity of 64 items. Refuted: more than 64 items (each attribute counts three times) abort the node, a required value may be the value of another key, an inbound-only policy reports an error although it was set."],
"C17": ["partial", "First enabled rule only, action/exit/entry once and in that order, no rule leaves everything unchanged, never crashes for well formed tables; with arbitrary callback effects as long as callbacks do not move the machine themselves. Refuted: a follow-up transition inside an action runs the entry function of the state that was left again; the explicit transition gives up at the first failing rule."],
"C18": ["partial", "proved for keys of one kind: strings up to 255 bytes, dhkeys, uuids, doubles, int and ulong keys within a window of 32768 values; refuted with witnesses for wider ulong and int keys, mixed kinds and longer strings"],
"C19": ["partial", "proved for all values and all trees, except unsigned ints from 32768 on, hashes of 256 bytes and more (both refuted) and the smallest int32_t and int64_t (undefined negation)"],
"C20": ["partial", "Proved exactly for standard filters (add, union, intersect), decaying filters (every history), stable filters (immediate check) and scalable filters up to 255 blocks / 16 bit offsets; beyond that, for sizes that are not a multiple of 8, and for stable filters after another add, the statement is refuted."],
"C21": ["partial", "Proved while no cell counts to 255 and the filter is not full (in particular up to 31 items at a time); refuted for cells that saturate, and for removal from a full filter."],
"C22": ["partial", "Add, check, union, ageing, intersections, comparisons proved exactly for up to 64 items; removals proved for up to three items; refuted: eight removals, removal from a full filter, age of intersections with 32 or 64 items."],
"C23": ["partial", "Multi mode (the default): signature exactly the min/max signature of the token set (hence order and repetition independent), trees contribute exactly their shingles, similarity symmetric, bounded and maximal for equal signatures. Merge equals the union except at one position (refuted there). Single, fixed and flexible modes depend on repetition, order or uninitialised memory (refuted)."],
"C24": ["proved", "Termination (full period of the congruential step), range, exact uniformity over the 2^32 raw words, initialisation; bound zero is undefined behaviour."],
"C25": ["partial", "Proved for keys of up to 8191 bytes while the trie is never emptied and a new key agrees loosely with the present ones (always so for keys of one byte): lookup, walk in key order, union, removal. Refuted in general: an insert can make an earlier key unreachable, an emptied trie makes the next insert undefined, a removal can hand out freed memory, an intersection keeps keys that are only in one trie (what an intersection with one key does is C25_intersect_one)."],
"C26": ["proved", "All histories of joins and leaves through the handlers of np_comp_node.c, one after the other and under all schedules of any number of threads: places, counter, references, at most once, complete leave. The routing module alone does not keep 'at most once' (C26_once_refuted), and with several threads the flag may be wrong (C26_flag_race_refuted)."],
"C27": ["partial", "Sorted, bounded, duplicate free, own id never inside, only the farthest is displaced, counters, flags and references: proved for all histories. That the leafset holds the closest nodes is false (C27_closest_refuted): admission goes by the ring, the order by the distance of the library."],
"C28": ["partial", "Closest key and both sorts proved for all lists (including termination of the pass loop within n*n passes). Distance is the distance of the code base (C03); since different keys can have distance zero, the key searched for itself can be missed (C28_exact_refuted)."],
"C29": ["partial", "Proved for all histories: bounds for arbitrary filters (C29_bounded), totality with at most 30 subjects per bucket, an inhaled pheromone is found at once, answers are sound, kept while strength lasts (under the stated load limits), forgotten after 32 decays, a full list loses exactly one and never the new source. Refuted with witnesses: the one dropped is not the oldest; 16+16 sources are dropped by the next decay; 31 subjects in a bucket leave the table locked for ever; decay with 31 entries reads behind the array; of two equally distant neighbours the second is lost; a crowded remote filter aborts the node."],
"C30": ["proved", "All event programs (handlers may add events or start nested chains at any point). Abort at the 256th event of a chain is stated as C30_capacity. Events addressed to unknown keys are dropped by the handler itself, not by the chain."],
"C31": ["partial", "Proved for every body up to 72 chunks (64800 bytes); for every larger body the announced count is too small (16 bit cut before the division), proved as C31_chunk_count_large_refuted."],
"C32": ["partial", "Every arrival order without duplicates, and every arrival sequence with duplicates that starts with the first chunk, reassembles the message; reorder plus duplicate, mac wrap-around and foreign chunk numbers are refuted."],
"C33": ["partial", "Proved for bodies whose calculated size is enough and up to 64800 bytes (72 packets), if packet numbers do not run over the two byte counter: any order of packets gives back header fields and body, and user data reaches the callback unchanged. Refuted: a body that is larger than calculated is replaced by random bytes silently, the decoder reads up to 124 bytes behind the message, user data of a number type is used as a pointer."],
"C34": ["proved", "For every pool, callback set and history of operations on references held: callbacks follow the life cycle, references and liveness agree, release returns the remaining count and recycles exactly at zero, counters are exact, no item is lost or listed twice, the pool keeps its minimum. Addresses are assumed not to be reused after free(); statistics only decide whether the pool shrinks."],
"C35": ["partial", "Every interleaving of any number of threads in which the delayed np_memory_free meets neither a deleted object nor one just being handed out is safe and leaks nothing. Without that condition the claim is false: witness schedules give one object two owners, put an owned object on the free list, and read a deleted item."],
"C36": ["partial", "Validity holds exactly for acceptable tokens (type, expiry, both signatures, counters) and after every history of checks; self-signed identities are accepted until expiry. The not_before date is never checked, so that part of the statement is refuted."],
"C37": ["partial", "Fingerprint, validity, authentication and own signatures are required and honest issuing works; but the issuer signature is verified with a key taken from the token itself, so a forged issuer is accepted (refuted), and a mistyped attribute is undefined behaviour (refuted)."],
"C38": ["partial", "Proved for tokens whose string fields have equal lengths; refuted in general: fields are concatenated without separators, and the type is not covered."],
"C39": ["partial", "Both directions are lossless for id strings that are empty or lower case hex; a realm set by name is lost (refuted)."],
"C40": ["partial", "Expiry and ttl split proved; refuted when the configured ttl is below one second per attempt."],
"C41": ["partial", "Refuted: np_use_token rejects every token because the type of the imported token is never set."],
"C42": ["partial", "The bound max+1 per peer is proved while no counter reaches 255, and drops only happen over the limit. Refuted: the default limit never drops anything, a burst of more than 4096 packets and 4097 slow packets stop the process."],
"C43": ["partial", "Proved for one thread and every history without resizing; refuted for two threads, after resizing, with 512 peers or more, and when more messages arrive than the filter holds."],
"C44": ["proved", "key state machine as a system of concurrent activations; conditions read arbitrary views; every schedule. C44_table: the transition table is built without failure"],
"C45": ["proved", "any nesting of activations"],
"C46": ["partial", "proved for 'accepted a token that is presented for the node or names the node as its partner'; C46_own_token_refuted: an identity token with a self-claimed partner opens a node whose own token was never presented"],
"C47": ["proved", "for schedules without nested activations on one key"],
"C48": ["proved", "first part for schedules without nested activations on one key"],
"C49": ["proved", "for every history with any keys"],
"C50": ["partial", "proved for trees of every nesting with keys of one kind and values of the supported types; refuted for keys and strings of one character, uuid keys and unsigned numbers from 2^63 on"],
"C51": ["proved", "Each call is atomic (module lock). Object addresses are not reused in the model."],
"C52": ["partial", "Proved while the set of keys does not change: at most 2*(n/10+1) runs. Refuted while keys come and go: a key can be left out indefinitely (witness with 12 keys and 20 runs)."],
"C53": ["partial", "Exact answer of the search for all histories, targets and counts; progress of prefix routing for all paths; own id aborts (C53_own_id). False without a usable onward neighbour (C53_bounce_refuted), with an empty leafset and count 1 (C53_empty_leafset_refuted), and bad links may be chosen (C53_bad_link_refuted)."],
"C54": ["partial", "Proved for handshakes of one part and everything that is not a handshake; refuted for every other number of parts (unallocated write or failed assertion)."],
"C55": ["partial", "Proved over all histories of legal calls for what is read back, what takes effect and what stays, except audience, reply id, fractions of seconds and channels that only send: refuted, one of them with a dangling pointer."],
"C56": ["partial", "Bound, accounting of all messages, order of release, release of all, overflow rules proved; refuted: a message without session blocks the others, a lowered cache size stops the cache, new messages overtake waiting ones, more than 254 waiting messages abort."],
"C57": ["partial", "The limit never holds back a message while it is not lowered (proved); it limits nothing and lowering it can stop the channel for ever (refuted)."],
"C58": ["partial", "Proved with settings made by np_set_mx_properties, uuids with a fixed expiry and messages in time; refuted without np_set_mx_properties, for redelivered copies, and for forged messages with the same uuid."],
"C59": ["partial", "Proved for all histories without intents that ask for a single partner: every session key, every secret the own key is sent under and every partner shown belongs to a key that was admitted and accepted; an accepted peer gets its sessions (own intent present, no other intent with the same key and uuid waiting); no undefined behaviour while own intents are valid. Refuted: single-partner intents inherit the permission of another peer; another issuer with the same key and uuid is never asked about; with a realm an open channel lets nobody in; acceptance before the first own intent and an expired own intent read an empty list."],
"C60": ["partial", "Proved for all histories: without a yes (or for a realm client) nobody gets a session, nothing is sent, nobody is shown; with only one callback in effect its answer counts. Refuted: the global callback overrules a no of the channel; the sending callback replaces the answer of the receiving one; a repeated intent loses a yes."],
"C61": ["partial", "A disabled channel sends nothing and sends again when enabled (proved); it still receives and loses its settings (refuted)."],
"C62": ["partial", "Proved: after as many checks as intents known exactly the valid ones are left and the others have no session under the current id (own intents valid, no single partner). Refuted: sessions made under a former own intent, and keys handed over by the sender, stay."],
"C63": ["partial", "Proved for all histories: a key agreed with a peer is stored only under ids made from an intent with that peer's key. Refuted: an accepted sender replaces the key another one handed over, and can make another peer's session use a key of zeros."],
"C64": ["partial", "Reading an address gives back its parts for every well-formed address; the reported address is that of the first request that could be met, for every history, if no other address of the machine continues its text (else refuted); a buffer of exactly the length is not terminated (refuted)."],
"C65": ["partial", "The node listens only where np_listen was told to, for every history. np_listen listens if the address is not the main one and bind succeeds; refuted: second port on the main address, failing bind, port 0."],
"C66": ["partial", "A well-formed address leads to a join of the named node if no known node looks alike and the peer counts as reachable; a join only goes where the address says. Refuted: unreadable addresses give np_ok, a typo in the fingerprint joins anyone, lookalikes suppress joins, long host names are cut, abort without interface."],
"C67": ["partial", "The decision is characterised for every pair of addresses, IPv4 and IPv6, for the chosen and the main interface. Refuted: equal private IPv4 addresses are undefined behaviour; 127.0.1.1 is not taken as loopback."],
"C68": ["partial", "Proved: linked nodes read each other in both directions, any path of hops keeps the content and counts hops, end to end delivery of a user message over per-packet paths (composed with C33), and authenticity (accepted packets were sent by that peer to this node). Laws of key exchange and cipher are hypotheses with an instance. Refuted: equal handshake priorities give keys that never match; replayed packets are accepted."],
"C69": ["partial", "Proved for user messages (nonce drawn at random, distinct in bytes 2..11): all packets over a connection have pairwise different nonces, any number of messages. Refuted for messages of the protocol itself (nonce never drawn) and for packets that are sent again."],
"C70": ["partial", "Agreement at every id and delivery of keys are proved for all histories with fingerprints whose sums and exclusive ors do not collide; missing: a receiver that gets intents before its own is announced (refuted), waiting messages without session (C56)."],
"C71": ["partial", "Private keys with two nodes only, shared keys only with nodes whose intent was received, none after removal; missing: removal after the sender announced another intent (refuted)."],
"C72": ["partial", "Proved when one message is on its way. In general false: an acknowledgement marks the root of the tree of handlers, whatever it names (refuted for every state with two messages); a zero as message id aborts"],
"C73": ["partial", "Time stamps, single resends, silence after the report, single reports proved for all histories. That every wait ends is proved when no new message is sent; refuted otherwise (31 long-lived messages hide a late one for ever)"],
"C74": ["partial", "Proved for any segmentation within an event and any refusals between packets; refuted for events interrupted inside a packet: a read throws the part away and a write repeats it, after which every later packet is wrong."],
"C75": ["partial", "Proved for datagrams of at least packet size, for single short ones, routing to owner or alias, and the on/off switch; refuted for the rest: an empty datagram from anybody ends listening for good, a short one merges with the datagram behind it under that sender's address."],
"C76": ["partial", "Proved for every token whose texts are not one character long (round trip through the tree, its serialised form and the decoder; acceptance until expiry), and that nothing incomplete or with a key off the curve is read. Refuted for texts of one character: the receiver reads a stale pointer."],
"C77": ["partial", "Proved: every well formed body whose token names an id where one is used (subject of an intent, issuer of a handshake or update), in particular every body made of tokens of a node, is handled. Refuted by missing fields, fields of another kind or size, tokens without a subject (one handshake of a stranger aborts the node), subjects and issuers that are no ids, attribute blocks with a wrong size, partners that are no fingerprints, gaps in lists of nodes and places of scents."],
"C78": ["partial", "Proved: joins and leaves act only with tokens signed by the key in them, joined to each other in the case of an identity. Refuted: nothing ties the tokens to the connection, so any peer that knows the token of a node ends that node's connections or joins under its name."],
"C79": ["partial", "Proved: for 0..130 threads exactly that many are started, one manager, each loop served once; threads are started at most once if one application thread makes the calls, and never again after np_run has set the node running. Refuted: 131..255 start threads without end (int8_t counter), only the lowest byte of n_threads counts (256 = none), two concurrent first calls of np_run start the threads twice. Threads work only while the node is running (C79_work_only_while_running)."],
"C80": ["partial", "Proved for all queues and clocks: returns at the first check at or after the end time (or end of the node), at most one job per check; no job is lost, duplicated or run early. Refuted: np_run(0) runs at most one job and leaves due jobs waiting."],
"C81": ["partial", "Proved for all histories in which the callbacks are registered after the first np_run, are not NULL and do not register callbacks. Refuted: earlier registrations are dropped with np_ok, a NULL callback hides the later ones and the leave notice, a callback that registers one hangs np_destroy."],
"C82": ["partial", "Proved for every schedule and any number of callers: a freed node has no live thread; np_destroy returns within 6 steps per thread + 5 if no worker is between looking for a job and waiting and no other call is under way. Refuted: lost wake-up of a worker makes np_destroy wait for ever, a concurrent np_run sets the status back to running, np_run uses the freed node."],
"C83": ["partial", "Proved for every message up to 2^32-1 bytes and every history of attributes: body written, read back and converted gives the same data, sender and attributes (those that had room; all if they fit). Missing: attributes under the reserved key _np.from (refuted: any sender, or abort of the receiver), accepted attributes dropped when they exceed a message (refuted), 4 GB messages (refuted), user data that is no byte string (refuted). Packets, encryption and routing in between are C33, C54, C68."],
"C84": ["partial", "Answer and queueing proved for every reachable queue with room; refuted: np_ok for messages dropped by a full queue, no answer for over-long messages."],
"C85": ["partial", "Order, once each, duplicates and failed checks proved for all lists of callbacks; refuted: answer false is ignored, virtual subjects answer np_ok without registering."],
"C86": ["partial", "Proved: subject of a text in a cleared field is its hash and its id; sequences combine by exclusive or; names are found again by one thread and by any threads after the first call returned. Refuted: order of texts is irrelevant and repeated texts cancel, uncleared fields change the subject, length 0 gives one id for all texts, concurrent first calls of np_regenerate_subject destroy the table, a 64 byte buffer is overrun."],
"C87": ["partial", "Proved for all histories that were accepted within 15 attempts to connect; the latency claim needs a clock that moves between question and answer, refuted otherwise (C87_latency_refuted). Times are integers, doubles are not modelled."],
"C88": ["partial", "Retry, spacing and end proved for all histories; the claim that a slowly accepted peer is kept is false of the code (C88_accepted_late_refuted)."],
"C89": ["partial", "Proved: ids are equal only for the same sort of thing at the same reading of the clock (or a hash collision). Refuted: node, receiver and content take no part, so two messages made at the same time get the same id and a receiver that checks for duplicates loses one."],
"C90": ["partial", "Proved for the first identity of a node that is unexpired and leaves room for the partner fingerprint: it is used, bound and shown; refused while running. Refuted: a second or an expired identity is ignored with np_ok; full attributes stop the process."],
"C91": ["partial", "Proved for settings other than the number 24 and attributes that fit and do not use neuropil's own names; the token is taken to arrive unchanged (C76). Refuted: max_parallel 24."],
"C92": ["partial", "Proved when everything fits. Refuted: attributes that do not fit are left out silently or stop the node."],
"C93": ["proved", "All threads, callbacks and schedules; the locks left out are listed in Lock_Model."],
"C94": ["partial", "Proved if callbacks touch only channels of lower level, in particular for senders without prosumer channels; refuted for two prosumer channels crosswise and for np_add_receive_cb crosswise."],
"C95": ["partial", "Proved for peers without network of their own (UDP) and for one thread; refuted for TCP peers (packet or hang-up after the handshake)."],
"C96": ["partial", "Proved: round trip with the passphrase into any structure in any later process, nothing with another passphrase, zeros refused, only authentic files are accepted (for boxes with the laws of sound_box). Refuted: foreign files with more than 512 bytes, replacing saved keys, missing directory, working directory."],
"C97": ["partial", "Proved: everything but the secret key comes back into a zeroed structure; other passphrase and other name refused. Refuted for identities: the secret key is not saved. Missing: structures that are not zeroed."],
"C98": ["partial", "Proved: an identity is known in the process that stored it. Refuted: nothing survives a restart, for every list; loading never returns np_ok."],
"C99": ["partial", "Proved for whole numbers up to 2^24 in every history; a counter never goes down for any amounts; calls for other metrics do not matter. Refuted: a counter stops for ever at 2^24; reading without a clock calls a null pointer."]
}
