# Formal model of neuropil – design

Source under study: `/repo` (pi-lar/neuropil, C). Model and proofs: `/verif/rocq/theories` (Coq 8.16.1).

## Layout

Each area `X` of the code gets up to four files:

* `X_Model.v` – Gallina transcription of the C functions, one definition per C function, every
  definition cites file and lines and states its simplifications.
* `X_Spec.v` – the small independent specification (pure mathematics; does not use the model's helpers).
* `X_Proofs.v` – lemmas.
* `X_Props.v` – only the headline theorems (`exact lemma`), non-vacuity examples beside them, and
  `Print Assumptions` for each.

Conventions: C unsigned arithmetic is written with explicit `mod 2^n`; undefined behaviour, failed
`assert`/`ABORT` and out-of-bounds accesses are a distinct outcome (`UB`/`Abort`/`None`) of the model
function, never silently totalised. Loops are structural recursion or carry fuel; every theorem about a
fuelled function either proves that the fuel suffices or carries the hypothesis that it did.
Concurrency is modelled by interleaving of atomic steps (one step per lock-protected region).

If the faithful model violates the property a user expects, the exact violation is proved as a theorem
named `…_refuted` (with a concrete witness) and the strongest true statement is proved beside it
(suffix `_partial` if the full English claim is not covered). Those are collected under *Findings*.

## Plan per property

| Id | Modelled | How proved |
|----|----------|-----------|
| C01 | `_np_dhkey_cmp/_equal` on 8 32-bit words | induction over word lists; order laws |
| C02 | `_np_dhkey_add/_sub` | modular arithmetic per word |
| C03 | `_np_dhkey_distance` | symmetry by case analysis; counterexamples by computation |
| C04 | `_np_dhkey_between` | reduction to the order on 256-bit numbers |
| C05 | hex printing and parsing | list induction over digits |
| C06 | `_np_dhkey_index`, `_np_dhkey_hexalpha_at` | loop invariant |
| C07 | `_np_dhkey_hamming_distance` with its uint8 accumulator | counting argument; refutation at 256 |
| C08 | binary heap macros as array functions | heap invariant, multiset equality |
| C09 | insert/select/run of the job queue, sequential | invariant over histories |
| C10 | two-phase select as interleaving system | at-most-once invariant; early-run counterexample |
| C11 | list macros as functions on sequences with size field | induction |
| C12 | bucket array of association lists | refinement to a finite map |
| C13 | tower lists | refinement to a sorted set for every height oracle |
| C14 | data block as encoded byte string | round trip of the codec, refinement to a map |
| C15 | size function and CBOR head size | exact characterisation of the deficit |
| C16 | policy evaluation on bloom filters | support inclusion |
| C17 | rule table interpreter | induction over the table |
| C18 | binary search tree with arbitrary rotations | in-order list refinement |
| C19 | size function against wire size | arithmetic, case analysis |
| C20 | standard, scalable bloom filters | set-bit monotonicity |
| C21 | counting filter | cell counter invariant; refutations |
| C22 | neuropil filter | cell invariants under capacity |
| C23 | minhash update | idempotent commutative folds |
| C24 | bounded rng | modular counting |
| C25 | qp trie | path lemma; counterexamples |
| C26 | routing table slots | invariant over histories; counterexample |
| C27 | leafset lists | sortedness invariant |
| C28 | closest key, sort functions | permutation + sortedness + termination measure |
| C29 | pheromone tables | bound invariant; counterexample for eviction |
| C30 | event chain | induction over chain |
| C31 | chunk number arithmetic | arithmetic; counterexample above 64 KiB |
| C32 | chunk slots with displacement | slot invariant over all arrival orders |
| C33 | message memory, packets, cipher as parameter, user data | list algebra over C19, C31, C32, C50; counterexamples |
| C34 | allocator lists + counters | invariant over histories |
| C35 | same as interleaving system | counterexample schedule; invariant for the repaired window |
| C36 | validity check with an abstract signature oracle | case analysis |
| C37 | issuer verification | counterexample with adversarial attribute |
| C38 | hash pre-image as byte string | counterexample; injectivity for fixed field lengths |
| C39 | conversion functions | record equality |
| C40 | expiry test and ttl of a message, redelivery attempts | arithmetic; counterexample for short ttl |
| C41 | `np_use_token` and the import of tokens | counterexample for every token |
| C42 | packet limiter of np_network.c on the counting filter | invariant over histories; counterexamples |
| C43 | duplicate filter of the alias component on the decaying filter | invariant; counterexample schedules |
| C44 | transition table of np_key.c with the conditions of np_comp_*.c, events to keys under every schedule | invariant over system steps |
| C45 | same | invariant |
| C46 | same, with the answers of the authentication callback | invariant; counterexample |
| C47 | same | invariant |
| C48 | same | invariant |
| C49 | `RB_GENERATE` of tree.h with zippers | red-black invariants |
| C50 | tree (de)serialisation on CBOR items | structural induction over nested trees; counterexamples |
| C51 | key cache on the red-black tree with reference counts | refinement to a map |
| C52 | `_np_keycache_check_state` rounds | progress measure; counterexample |
| C53 | `_np_route_lookup` | case analysis over all histories; counterexamples |
| C54 | handshake datagram on the message layout | case analysis; counterexamples |
| C55 | settings objects shared by the two sides of a channel, with the calls of the API | invariant over all histories; counterexamples |
| C56 | message cache of a channel with events, sessions and time as input | invariant, permutation of all messages; counterexamples |
| C57 | counter of parallel messages on the same model | invariant; induction for the counterexamples |
| C58 | list of known uuids on the same model | invariant over all histories; counterexamples |
| C59 | intents, decisions and sessions of one side of a channel, callbacks and validity as input | invariant over all histories; counterexamples |
| C60 | decision on the same model | invariant over all histories; case analysis; counterexamples |
| C61 | disabling and enabling on the model of C55 | invariant; counterexamples |
| C62 | periodic check of intents on the model of C59 | uniqueness invariant, induction over the checks; counterexamples |
| C63 | import of keys on the model of C59 | invariant over all histories; counterexamples |
| C64 | addresses as byte strings, interfaces in key order, `np_get_address` | round trip by induction on the text; invariant over all histories of calls; counterexamples |
| C65 | `np_listen`, sockets opened for each call | invariant over all histories; counterexamples |
| C66 | `np_join` up to the join that is started | case analysis on the text, for all states; counterexamples |
| C67 | decision on IPv4/IPv6 addresses | arithmetic on 32 bit addresses (first octets, common leading bits), case analysis over both IP versions; counterexamples |
| C68 | session keys, sealing and opening of datagrams, forwarding along a path | symbolic key exchange and cipher as parameters with laws; induction over the path; composition with C33; authenticity from the separation of keys; counterexamples (equal priorities, replay) |
| C69 | nonces of the packets of a history of messages | counting within a message, distinct random parts between messages; counterexamples (messages of the protocol, repeated packets) |
| C70 | all senders and receivers of a channel with their sessions, key messages in transit | invariant over histories: every session is own, private, initial or imported, private and initial come together; counterexample (end not announced) |
| C71 | same model | same invariant with origin of keys; second invariant after a removal; counterexample (renewed intent of the sender) |
| C72 | `Ack_Model`: the tree of response handlers (the tree model of C16-C19), lookup of an acknowledgement as text, the check of the handlers | invariant tying handlers to histories; refuted for every state with two messages on their way; proved for one |
| C73 | same model with the copies kept for redelivery | same invariant with the time stamps sent; ending by counting; counterexample for any number of rounds (starvation behind 31 living handlers) |
| C74 | `Net_Model`: send and receive loops of a TCP connection, the operating system's answers as inputs | invariant (given = handed on ++ under way ++ queued) over all event lists; exact description of the stream after a cut, for every cut position and number of packets |
| C75 | same file: the receive loop of a UDP socket, the verdict on what was collected, start/stop/enable/disable | invariant over all event lists; counterexamples for every state (empty and short datagrams) |
| C76 | `In_Model`: encoding of a token to tree calls, decoding field by field, check and acceptance of a token read | composition of the tree (C18), serialisation (C50) and data block (C14) theorems; all tokens; counterexample by computation |
| C77 | same file: the handlers of join, leave, update, available, handshake, the lists of nodes and places of scents, with undefined behaviour and failed assertions as outcomes | every handler returns on well formed bodies; counterexamples for each unchecked assumption |
| C78 | same file: events the handlers of join and leave raise, the conditions under which keys act on them | all bodies: events imply signed, mutually bound tokens; refuted for tokens of a third node |
| C79 | `Life_Model`: the loops of `np_threads_start_workers` with their machine integers; a machine of application threads calling np_run/np_destroy | computation over the 0..130 range by induction on the loop; divergence by an invariant; interleavings as lists of steps |
| C80 | `np_jobqueue_run_jobs_for` against a stream of clock readings | induction on the run; counterexample for outstanding jobs |
| C81 | src/np_shutdown.c and the calls around it as a machine over call histories | invariant over all histories; three counterexamples |
| C82 | the same machine with worker, manager and event loop threads, their waits and wake-ups | safety as an invariant over all schedules; termination by a measure; counterexample schedules |
| C83 | `Deliver_Model`: body of a message with its attributes (`np_send_to`) and the conversion for callbacks, over the models of trees, CBOR and data blocks | composition of the invariants of data blocks, trees (C18) and serialisation (C50); counterexamples through the API |
| C84 | `send_to` over the model of the job queue | C09 for reachable queues; a full queue by induction as counterexample |
| C85 | list of callbacks of a subject, `handle_in_msg` | induction on the list; counterexample |
| C86 | `Subject_Model`: exclusive or of hashes on key words; np_regenerate_subject as steps of any number of threads over its two static variables | algebra of exclusive or; invariants over all schedules; counterexample schedule |
| C87 | `Link_Model`: one peer as a transition system over answers, timeouts, checks and the answers of the routing tables; ring buffer of 31 outcomes; times as integers | invariant relating the ring buffer to the history; induction over histories; counterexample for the latency |
| C88 | `Link_Model`: connecting, attempts, grace time | invariants over histories; counterexample history of 16 attempts |
| C89 | `Uuid_Model`: the text that is hashed, with the time printed as by `%.16f`; the hash a parameter | injectivity of the text in sort and time; counterexample: same time on two nodes |
| C90 | `Issue_Model`: np_use_identity on token objects and attribute blocks | calculation with the invariant of attribute blocks (C14); counterexamples: second, expired and full identities |
| C91 | `Issue_Model`: derived tokens and intents on the token checks of C36, C37 | the made intent meets the specification of acceptable tokens for all inputs; counterexample max_parallel 24 |
| C92 | `Issue_Model`: merging of attribute blocks | refinement to finite maps (C14, C16); counterexamples without room |
| C93 | `Lock_Model`: threads as lists of lock, unlock and callback steps, recursive mutexes, schedules as lists of threads | invariant: what a thread holds is a stack of locks and callbacks, callbacks above the lock of their channel |
| C94 | `Lock_Model`: the locks that API calls take, as functions of the settings of the channels | no deadlock by descent along levels of channels; counterexamples: two prosumer channels, np_add_receive_cb crosswise |
| C95 | `Lock_Model`: the locks of the reading loop, alias keys and networks | no deadlock by ranks for UDP; counterexamples for TCP |
| C96 | `Idfile_Model`: CBOR maps with labels, the envelope, files with permissions, working directory and errno | round trip of the encoders; crypto_secretbox as a record of functions with stated laws; counterexamples for foreign files, second saves, missing directories |
| C97 | `Idfile_Model`: np_serializer_write/read_nptoken on all fields | round trip, bound on the size; the secret key is not written: refuted for identities |
| C98 | `Idfile_Model`: the output buffer of the encoder with its capacity, the mapped file | the buffer is too short for every list, what is left is not recognised |
| C99 | `Metrics_Model`: binary32 as multiples of 2^-149 with rounding to nearest even, registry of metrics, all calls | induction over the calls; rounding is monotone and exact on whole numbers up to 2^24; the counter that stops is a fixed point of the sum |
| C100 | `Metrics_Model`: rates with interval, last measurement and last value | error bound of the float quotient; frame lemma: only calls for the base metric change a rate |
| C101 | `Metrics_Model`: size of the buffer, every snprintf with its position and the running `size`, the last write; the two locks | the sum of all positions is larger than the buffer for every registry, so the last write is outside; invariant of the lock count |
| C102 | `Metrics_Model`: lists of labels of a metric and of its rates | case distinction on the label being there, frame for other metrics |
| C103 | `Attrget_Model` on top of `Data_Model` and `Deliver_Model`: a message as it is delivered, then the read with the caller's configuration and memory | the lookup in the delivered block is the specification's (C83); case distinction on what is found |
| C104 | `Attrget_Model`: the blocks of a token and of both sides of a channel, the node's own stores | specification of one write (C56) applied to every block; cases on which has room |
| C105 | `Http_Model`: the copy with its unset byte, every pass over it, moves inside the copy | the number of non-zero bytes falls with every change (termination); a zero stays at the end (safety); the first pass decodes, later ones find nothing |
| C106 | `Http_Model`: strsep at both separators, pairs, tree of strings | induction over the arguments |
| C107 | `Http_Model`: keys of 127 characters, table of callbacks, the text for unknown paths with the wrapping size, table of status numbers | keys are injective as digits have no colon; sum of the lengths against the buffer |
| C108 | `Out_Model`: rounds with falling demand on the table of `Pheromone_Model`, removal of the previous hop, copies for the job queue | one lemma: the answer for any demand follows from the one for the lowest; composed with C29 for all histories |
| C109 | `Out_Model`: kinds of keys in the cache, loop of the acknowledgement with `Hangs` | the loop state is the strength, which is constant; composed with C29 |
| C110 | `Out_Model`: nine fixed demands | induction over the rounds |
| C111 | `Flood_Model`: a set of nodes of `Out_Model`, packets under way, any order of arrival | invariant: who has it has passed it on, or it is under way; a weight that falls with every arrival if trails have no cycle; counting packets if each node has other neighbours |
| C112 | `Chain_Model`: the lists of handlers of a channel on top of `Mx_Model`, histories of calls and messages, trace of effects | invariant over histories: which lists a channel can have; the order of effects follows from the order of the list |
| C113 | `Chain_Model` | the list of the receiving side is fixed by the first call that gives the channel settings: induction over the rest of the history |
| C114 | `Chain_Model`: comparison of names up to the length of the shorter one, table of the subjects of the node | a text of 64 digits never begins with `_`; the table is computed |
| C115 | `Chain_Model` | case distinction over the list of handlers; a message that does not open as counterexample |
| C116 | `Discover_Model`: handling of an announcement on top of `Pheromone_Model` and `Out_Model` | the newest source of an entry survives its decay, on top of the simulation of C29; the rest from C110 |
| C117 | `Scent_Model`: the loop that ages a received filter, with the doubles of IEEE 754 as integers of units of 2^-1074 | rounding error below 2^-19 s for times in range, so each round moves the time by 0.01 to 0.0101 s; induction on the number of rounds |
| C118 | `Scent_Model`: reading of an update and choice of the next hops, on top of `Pheromone_Model`, `Route_Model` and `Out_Model` | from C29, C53 and C28 |
| C119 | `Parts_Model`: cache of incomplete messages and filter of messages seen before, on top of `Message_Model` and `Bloom_Model` | invariant over all histories: the cache holds for each message what C32 says of its parts alone, and one cell of the filter stays empty until the message is complete |
| C120 | `Allow_Model`: the setter of the callback of a channel and the question to the callbacks | induction on the list of calls; who is asked is computed from the list of calls alone |

## Trusted base

* Coq 8.16.1's kernel (and `vm_compute` in some concrete cases; `coqchk` re-checks them without it).
* What `Print Assumptions` lists per theorem; every `*_Props.v` ends with these commands. All theorems are closed under
  the global context (no axioms), unless the build log says otherwise.
* The correspondence between the C text and the `*_Model.v` files. It is by reading; every definition cites the lines.
* Outside libraries, described from their documentation and never proved:
  * QCBOR: `Cbor_Model.v` follows RFC 8949 (shortest heads, definite lengths). Its limits on nesting are not modelled.
  * libsodium: hash, signature and public key functions are parameters of `Token_Model.v` and `Attr_Model.v`; theorems
    name the laws they need (for example that an honest signature verifies). SipHash-2-4 in `Minhash_Model.v` is written
    out from its definition and checked against the published vector. `bin2hex`/`hex2bin` follow the documentation.
  * libc: `calloc`/`malloc` succeed and hand out fresh addresses; `qsort` is not used by the code.
* Numbers: C doubles and floats are integers in a fixed small unit (or ranks), without rounding, NaN and infinities. The
  comments say so where it matters.
* Host: little endian, 64 bit, release build (`assert` and `ASSERT` both count as failures of the process: `Abort`).
* Threads: one atomic step per region protected by a lock; memory is sequentially consistent.

### What is modelled

| Model | Code |
|-------|------|
| `Dhkey_Model` | src/np_dhkey.c; np_str_id, np_id_str of src/neuropil.c |
| `Heap_Model`, `Jobqueue_Model` | include/util/np_heap.h; queue, selection, insertion and workers of src/np_jobqueue.c |
| `Lists_Model` | SLL, DLL, PLL of include/util/np_list.h at pointer level |
| `Scache_Model`, `Skiplist_Model` | src/util/np_scache.c, src/util/np_skiplist.c |
| `Rbtree_Model`, `Tree_Model`, `Treeval_Model`, `Cbor_Model` | include/tree/tree.h (RB), src/util/np_tree.c, src/util/np_treeval.c, tree part of src/util/s11n_impl/np_serialize_qcbor.c |
| `Data_Model`, `Attr_Model` | src/neuropil_data.c, data block part of np_serialize_qcbor.c, src/neuropil_attributes.c, policy check of src/core/np_comp_msgproperty.c |
| `Bloom_Model` | src/util/np_bloom.c without the unused enhanced filter; limiter of src/np_network.c; duplicate filter of src/core/np_comp_alias.c |
| `Minhash_Model`, `Rng_Model` | src/util/np_minhash.c, src/util/np_pcg_rng.c |
| `Statemachine_Model`, `Key_Model`, `Eventqueue_Model` | src/util/np_statemachine.c; table of src/np_key.c and conditions of src/core/np_comp_*.c; src/np_eventqueue.c |
| `Keycache_Model`, `Route_Model`, `Pheromone_Model` | src/np_keycache.c, src/np_route.c with the handlers of src/core/np_comp_node.c, src/np_pheromones.c with src/np_dendrit.c:820-893 |
| `Trie_Model` | src/util/np_cupidtrie.c |
| `Wire_Model` | src/np_message.c (memory layout, creation, encryption, packets, reading), src/core/np_comp_node.c (packets), src/neuropil.c (np_send_to, callback), src/np_dendrit.c (callback wrapper), src/core/np_comp_identity.c (handshake datagram) |
| `Mx_Model` | src/neuropil.c (np_set/get_mx_properties, enable, disable, np_send, np_add_receive_cb as far as they touch settings), src/core/np_comp_msgproperty.c (settings, conversion) |
| `Channel_Model` | src/core/np_comp_msgproperty.c (cache, limit, known uuids, messages in and out, redelivery list, check), src/np_axon.c (copy for redelivery) |
| `Intent_Model` | src/core/np_comp_intent.c, src/core/np_comp_msgproperty.c (own intents, arrival of intents), src/core/np_comp_identity.c (decision), src/np_dendrit.c (arrival of intents, import of keys) |
| `Address_Model` | src/np_node.c (reading addresses), src/np_network.c (protocol names, address classes, common bits), src/np_legacy.c (`_np_listen_safe`, `np_send_join`, connection strings), src/neuropil.c (`np_listen`, `np_run` up to the interface, `np_join`, `np_get_address`), src/np_glia.c (`_np_glia_node_can_be_reached`), src/np_keycache.c (`_find_interface`, `_find_by_details`); the operating system (getifaddrs, getaddrinfo, bind, inet_pton) is a parameter |
| `Secure_Model` | src/np_crypto.c (session keys, sealing), src/core/np_comp_alias.c (`__np_create_session`, `__np_alias_decrypt`), src/core/np_comp_node.c (`__np_node_send_encrypted`), src/np_axon.c (`_np_out_forward`: hop count); libsodium's key exchange and cipher are parameters with laws (Secure_Spec) |
| `Agree_Model` | src/core/np_comp_intent.c (`_np_intent_update_sender_session`, `_np_intent_update_receiver_session`, `_np_intent_update_session`, `_np_intent_import_session`), src/np_axon.c (encryption of key messages), src/np_dendrit.c (`_np_in_callback_wrapper`: decryption and import); acknowledgement sessions are not modelled, a key message without session is dropped instead of waiting (C56) |
| `Ack_Model` | src/np_message.c (`_np_message_add_response_handler`), src/np_axon.c (`_np_out_callback_wrapper`: copies and handlers; `_np_out_ping`), src/np_dendrit.c (`_np_in_ack`), src/core/np_comp_msgproperty.c (`__np_response_handler_set`, `__np_property_redelivery_set`, `__np_msgproperty_redeliver_messages`, `_np_msgproperty_cleanup_response_handler`); not: the check whether a pinged node still exists, chains of more than 255 events, doubles (times are whole numbers) |
| `Net_Model` | src/np_network.c (`_np_network_send_data`, `_np_network_write`, `_np_network_read` up to the job, `_np_network_start`, `_stop`, `_enable`, `_disable`); the answers of send, recv and recvfrom are inputs; not: accept, connect, locks, the event loops, the creation of the alias key for a new address (C54 has the effect of the job itself) |
| `In_Model` | src/np_aaatoken.c (`_np_aaatoken_encode`, `np_aaatoken_decode`, what `_np_aaatoken_is_valid` reads, `np_aaatoken_get_partner_fp`), src/np_token_factory.c (`np_token_factory_read_from_tree`), src/np_dendrit.c (`_np_in_leave`, `_np_in_join`, `_np_in_update`, `_np_in_available_sender`, `_np_in_available_receiver`, `_np_in_handshake`: the tokens in them and the events they raise; the place of a scent in `_np_in_pheromone`), src/np_node.c (`_np_node_decode_from_jrb`, `_np_node_decode_multiple_from_jrb`), src/core/np_comp_node.c (`__is_shutdown_event`), src/core/np_comp_identity.c (`__np_identity_handle_authn`) |
| `Life_Model` | src/neuropil.c (`np_run`, `np_destroy`, `np_add_shutdown_cb`), src/np_threads.c (`__np_thread_status_wrapper`, `np_threads_shutdown_workers`, `np_threads_start_workers`), src/np_shutdown.c, src/np_jobqueue.c (`np_jobqueue_run_jobs_for`, the wait of a worker) |
| `Deliver_Model` | src/neuropil.c (`np_send_to`, `__np_receive_callback_converter`), src/neuropil_attributes.c (caches, `np_set_ident_attr_bin`), src/np_legacy.c (`np_add_receive_listener`), src/core/np_comp_msgproperty.c (`__np_property_handle_in_msg`) |
| `Subject_Model` | src/neuropil.c (`np_get_id`, `np_generate_subject`, `np_regenerate_subject`) |
| `Link_Model` | src/core/np_comp_node.c (guards and actions of `IN_SETUP_NODE` and `IN_USE_NODE` except sending message parts, piggy and update messages), src/np_node.c:54-90, src/np_key.c:239-287, 367-397 |
| `Uuid_Model` | src/np_util.c:55-78 (np_uuid_create), its callers in np_message.c, np_aaatoken.c, np_eventqueue.c, np_memory.c |
| `Issue_Model` | src/np_token_factory.c:80-311, src/neuropil.c:497-520, src/np_legacy.c:363-376, src/core/np_comp_identity.c:37-64, 134-223 (identity tokens), src/core/np_comp_msgproperty.c:1335-1418, src/np_aaatoken.c:594-616, 658-744, 935-995 |
| `Lock_Model` | the locks taken by src/np_key.c:571-606, src/np_eventqueue.c:157-221, src/core/np_comp_msgproperty.c:375-465, 1995-2055, src/neuropil.c:558-600, 640-735, src/np_legacy.c:299-328, src/np_network.c:592-940, src/np_evloop.c:84-165, src/core/np_comp_alias.c:271-303, 1385-1388; mutexes of src/np_threads.c:405-588, include/np_threads.h:240-277 |
| `Idfile_Model` | framework/identity/np_identity.c; framework/identity/np_keystore.c:219-300, 367-408, 501-531, 614-703 (saving, checking, storing, loading up to the recognition of the file); src/util/s11n_impl/np_serialize_qcbor.c:1026-1542 | memory locking, np_keystore_load_identity, the skip list and bloom filter of the key store (a list), short writes, permissions of directories |
| `Metrics_Model` | framework/prometheus/prometheus.c:58-65, 109-403; src/np_statistics.c:133-276, 374-424, 475-479 | destroying a context; rates of rates; infinities; races of calls on one metric (each call holds its lock); watching of subjects and np_statistics_print; the web server |
| `Attrget_Model` | src/neuropil_attributes.c:45-140 | finding the channel for a subject and its reference counts; races with sending |
| `Http_Model` | framework/http/urldecode.c:13-51; framework/http/np_http.c:109-132, 147-182, 248-327, 340-346, 748-768 | parsing of requests (htparse.c, evhtp.c), headers, sockets, sending in parts |
| `Out_Model` | src/np_axon.c:167-523, 600-675; src/core/np_comp_alias.c:1146-1207 | `_np_out_pheromone`, `_np_out_update`, encryption of parts, rounding of floats |
| `Flood_Model` | src/core/np_comp_alias.c:737-773, 952-990, 1146-1224 (many nodes of `Out_Model`) | loss and doubling of packets, messages of several parts, changes of the tables during the journey |
| `Chain_Model` | src/core/np_comp_msgproperty.c:1056-1133, 1166-1247, 1646-1659, 1995-2053, 2147-2195; src/np_dendrit.c:62-165, 287-334; src/np_msgproperty_init.c.part:29-290 | forgetting of uuids (C58), the limit of parallel messages (C57), listeners for sent messages, user handlers added by the framework |
| `Discover_Model` | src/core/np_comp_alias.c:737-804, 952-1104 | announcements of several parts; the time between the two jobs |
| `Scent_Model` | src/np_dendrit.c:797-935; src/np_axon.c:525-593; src/core/np_comp_alias.c:575-589 | deserialization of the filter (Bloom); the clock moving while a message is read; sums of doubles that overflow (cannot occur) |
| `Parts_Model` | src/core/np_comp_alias.c:36-244; src/neuropil.c:262-271 | threads between check and add (C43), reference counts; the hash that gives the key of a message is a parameter; cbrt is taken to be exact on cubes |
| `Allow_Model` | src/neuropil.c:854-906; src/core/np_comp_identity.c:587-612; src/core/np_comp_msgproperty.c:166, 410-466, 1614-1658 (that a direction is made once) | callbacks that call the library themselves |
| `Message_Model` | chunking and reassembly of src/np_message.c, packet assembly and part cache of the components |
| `Token_Model` | src/np_aaatoken.c, token part of src/np_token_factory.c, identity functions of src/neuropil.c |
| `Memory_Model` | pools and reference counts of src/np_memory.c, alone and under all schedules |

### What is not modelled

Accepting and connecting sockets and the event loop (rest of src/np_network.c, src/np_evloop.c), the other locks and starting of threads (rest of src/np_threads.c),
logging (src/np_log.c), statistics (src/np_statistics.c), bootstrap and shutdown orchestration, the effects of most
actions of the components beyond what the models above name, creation, import and signatures of identities (rest of src/np_crypto.c), and the
legacy API glue (src/np_legacy.c) except where a property names it.

## Findings

Behaviour of the code that contradicts what a user would expect. Those marked (T) are theorems named `…_refuted` with a
concrete witness; the others were found while reading and are recorded for completeness.

**Keys (np_dhkey.c).** Comparing two missing keys answers -1. Distance is zero for some different keys, violates the
triangle inequality and the ring order (T). Hamming distance of complementary keys is 0 instead of 256 (T). Rotation by 0
is undefined.

**Heap and job queue.** Removal from the middle never moves an element up (T). A `jobqueue_size` below 511 turns a
refusal into a failed assertion (T). A worker can run a job before it is due if another worker takes the one it looked at
(T). The sleep time ignores the next upcoming job. A periodic job that cannot be re-inserted aborts the node.

**Lists.** `sll_clear` leaves `last` dangling (T). `pll_find` stops at the first larger element of the wrong order (T).
The default comparison admits duplicates (T).

**Skip list.** Random number 2^31-1 overflows a signed shift (T). A failed find changes `*item`.

**Messages.** Bodies from 64801 bytes on announce too few chunks (T). A duplicate before the first chunk completes a
message with wrong content (T). A chunk number from the network that is larger than the number of parts writes outside the
array (T). The retry interval outlives a short ttl (T).

**Tokens.** `not_before` is never checked (T). The type is not covered by the signature, fields are hashed without
separators (T). The signature of an issuer is verified with a key taken from the token itself, so everybody can forge an
issuer (T). A mistyped attribute is undefined behaviour (T). `np_use_token` refuses every token (T). A realm set by name is
lost on export (T).

**Attribute policies and data blocks.** A token with 22 attributes aborts the node that checks a policy (T). A required
value is also found if it is the value of another key (T). Sizes are under-estimated for keys and values of length 24 and
for values longer than 65535 bytes; replacing such an entry corrupts the block and later calls hang (T). The integers -256
and -65536 fail an assertion (T). Malformed blocks make the search loop for ever or read outside; keys longer than 254
bytes from the network overflow a buffer.

**Memory.** A delayed `np_memory_free` races with release and re-use: one object with two owners (T).

**Bloom filters.** Scalable filter beyond 255 blocks writes outside (T). Sizes that are not a multiple of 8 write outside
(T). The stable filter may forget an item after one other add (T). Counting cells saturate; removal from a full filter
aborts (T). The age of an intersection is 0 when the filter holds 32 or 64 items (T).

**Limiter and duplicate filter.** The default limit of 256 never drops a packet (T); more than 4096 packets per period
abort the node (T), and so does one packet per period after 4097 periods (T). Two threads can both process a message (T).
From 512 peers on the filter has size 65536 and its decay loop never ends (T).

**Minhash.** Merge skips one position (T). Single mode depends on repetitions, fixed mode on the order (T). A size check
compares `sizeof(size)` (T).

**State machine and keys.** A follow-up transition inside an action runs the entry function of the source state again (T).
An identity token with a self claimed partner opens a node whose own token was never presented (T). The guards against
no-op events are without effect. The handshake handler dereferences NULL for a crafted message.

**Trees.** Unsigned keys are compared modulo 65536, int keys as 16 bit numbers, strings of 256 bytes and more are never
found again (T). Strings and keys of one character come back as a char, uuid keys are not written, unsigned numbers from
2^63 on come back as 0 (T). Sizes are too small for unsigned ints from 32768 on and for hashes of 256 bytes (T).

**Key cache.** The closest key can be another one than the key itself (T). Periodic checks can leave out a key for ever
while others come and go (T). The 256th event of a chain aborts the node (`C30_capacity`).

**Routing.** The table alone stores a node twice after a gap (T); the handlers prevent it, but their flags are written
outside the lock, so a node can be flagged and not stored (T). The leafset turns away closer nodes (T). The search may
choose a bad link (T), returns nothing with an empty leafset and count 1 (T) and can send a message back (T). A search for
the own id aborts (`C53_own_id`).

**Pheromones.** The source dropped from a full list is not the oldest (T). 16 senders and 16 receivers of a subject make the
next decay drop it at full strength (T). With 31 subjects in a bucket the next pheromone leaves the module locked for ever
(T), or the next decay reads behind the array (T). Of two neighbours at the same distance the second is silently lost (T).
A remote filter that claims more than 32 items aborts the node when it arrives twice (T). The age of a remote filter is
worked off in steps of 0.01 s from a remote time stamp: time stamp 0 keeps the node busy for ever.

**Prefix trie (np_cupidtrie.c).** Inserting can lose other keys (T); removing the last key under the root leaves an empty
branch that the next insert follows (T). A found data pointer is stale after a later insert (T). The intersection keeps
keys of one trie only (T). A failed delete leaks memory, several functions end without a return value.

**Messages.** A body that is larger than calculated is replaced by random bytes, the sender gets no error (T). The decoder is
given 124 bytes more than the message has, so the memory behind it is read (T). The type of user data and attributes is not
looked at: a number is used as a pointer (T). Every handshake datagram with a number of parts other than 1 stops the node,
before anything is authenticated (T). `np_send_to` returns `np_ok` although the job queue refuses the message. An attribute
"_np.from" of another size than 32 aborts the receiver.

**Data channels.** The audience is not part of what `np_get_mx_properties` returns: reading and writing back opens a protected
channel (T). A provider cannot read its settings and loses them at the next call (T). Enabling a disabled channel loses the
settings; disabling does not stop receiving (T). A change can leave a dangling pointer (T). One message without a session
holds up all that wait behind it (T); lowering the cache size below the content stops the cache (T); more than 254 waiting
messages abort the node when they are released (T). The limit of parallel messages limits nothing (T), but lowering it can
stop a channel for ever (T). Without `np_set_mx_properties` copies are given to the callback again (T); so is a redelivered
message after its first time to live (T); a message that cannot be decrypted suppresses the genuine one with its uuid (T).

**Access to channels.** An intent that asks for a single partner inherits the permission of an accepted peer with the same issuer
text and subject, with its own key (T); an intent with an accepted key and uuid is never asked about, whatever its issuer (T). With
a realm set, an open channel lets nobody in (T). A peer that is accepted before the node made its first own intent, or an own intent
that becomes invalid while no peer is known, makes the node read the head of an empty list (T). The global callback overrules the no
of the channel's callback, and the callback of the sending side replaces the answer of the receiving side (T); an intent repeated
before the decision is back loses the yes (T). Sessions made under a former own intent and keys handed over by a sender stay after
the intent of the peer ended (T). An accepted sender can replace the key of another sender, or make the session of another peer use
a key of zeros (T).

**Addresses.** `np_get_address` and the decision on reachability look for an interface by a prefix of its text, so 10.0.0.12 is
taken for 10.0.0.1 (T). A second `np_listen` on the first address, or on a port in use, returns `np_ok` without listening (T); port 0
is not the documented 3141 (T). `np_join` returns `np_ok` for every text of 11 to 499 characters (T). One wrong character in the
fingerprint turns the join into one that accepts any node (T). A known node whose address and port are part of the new one's text
suppresses the join (T). Host names are cut after 40 characters (T). Joining a second node at the own private address computes
`__builtin_clz(0)` (T). Without any interface `np_join` aborts (T).

**Ids.** An id is the hash of the sort of thing, its subject and the time: two messages made at the same reading of the clock, on whatever nodes, have the
same id, and a receiver that looks for duplicates drops the second (C89).

**Identities and intents.** np_use_identity returns np_ok also if the identity has expired or is a second one, and then goes on as before (C90). A channel
with `max_parallel` 24 stops the node when its intent is made, because the size of the number 24 is calculated too small and the result is asserted (C91,
C15). An attribute for all intents that is accepted when it is set is left out without notice if it does not fit; if it is a little smaller there is no room
for the fingerprint of the node and the node stops; an attribute of a channel that does not fit stops it as well (C92).

**Threads.** Events of a key run under its lock, callbacks of the application included, and np_send registers the channel each time, which for a channel
of role prosumer takes the lock of its receiving key. Two callbacks that send on each other's prosumer channel, or add callbacks to each other's channel,
can block two threads for ever (C94). The reading loop takes the lock of an alias key while it holds its own; the handshake of a TCP peer takes the lock of
the loop while it holds that of the alias key: a peer that sends a packet, or hangs up, right after its handshake can stop a node from reading for ever (C95).

**Saved identities.** The content of a `.npid` file is copied to a buffer of 512 bytes whatever its size, before any key is used: a foreign file overwrites
the stack (C96). Files are made read only and the check for an existing file is inverted (`ENOENT == errno`), so a second save by another process fails
unless errno happens to hold ENOENT. A directory that does not exist is silently replaced by the working directory, and loading from a directory without keys leaves the process in that directory.
`np_identity_save_token` does not write the secret key: an identity comes back as a token of somebody else (C97). The buffer of the key store's
file is one or two bytes too short for every list, so nothing is ever remembered, and `np_keystore_load_identities` never returns np_ok (C98).

**Metrics.** `prometheus_format` subtracts the position reached instead of the length of the last piece from the size left. After a few pieces the size wraps around and the
last statement writes a zero up to 4 GB behind the buffer: this happens for every node (C101). `prometheus_format_size` gives back the lock of a metric in place of the lock of the
context, so after one request for `/metrics` all other threads wait for ever. Descriptions of 255 characters are read beyond their end and label values are not escaped.
Counters are floats: a message counter stops at 16777216 (C99). The first rate is measured from 1970 on, and a rate is not measured again when traffic stops (C100).

**Reading attributes.** `np_get_msg_attr_bin` copies as many bytes as the sender put into the message, whatever the size of the memory of the receiver, so any node that may send
messages can write behind this memory (C103). For an attribute that is not there it copies from a null pointer if the configuration was used before, and a number put there by the
sender is used as an address. The answer of `np_set_mxp_attr_bin` is the one of the last block written: success does not mean that the other side of the channel has it (C104).

**Web server.** `urlDecode` never sets the last byte of its copy, so the result has an end only by chance; it decodes until nothing changes, so an encoded percent sign is decoded
twice, and %00 ends the text (C105). An argument without a value, or a value with `=`, shifts all later arguments (C106). The text for unknown paths is written behind its stack buffer
once the registered paths take more than about 7900 bytes, which the file server reaches with some hundred files. 201 and 202 are swapped (C107).

**Leaving the node.** `_np_out_ack` uses the node of whatever key has the id of the audience, without looking whether it is one: a neighbour that sends an acknowledgement addressed to a
subject or an identity of the node crashes it. If only senders of the acknowledgement subject were announced, its search for a trail never ends. Acknowledgements stop at trails below 0.352 and
for known nodes outside the tables, announcements at 0.2, other messages never (C109, C110). When the job queue is full nothing is sent and the answer is the same (C108).

**Journeys of messages.** A node passes on every part it gets for another audience, without asking the filter of parts seen before, and there is no limit for the number of hops. Where
the trails of a subject have a cycle (three receivers that know each other suffice) a message circulates until it expires; with four of them the packets multiply with every arrival (C111).

**Handlers of a channel.** The list of handlers is made once, when the channel gets its first settings, from the acknowledgement mode and the audience type of that moment; later settings do
not change it. A receive callback added before the settings means that nothing is ever acknowledged; acknowledgements set first are sent for ever; a channel that was virtual first and is made public gives
its callbacks messages that nobody decrypted, and drops everything it sends although `np_send` reports success (C112, C113). The acknowledgement is sent before the message is decrypted, so a message that cannot
be opened is acknowledged; and a message sent again is dropped as a duplicate without another acknowledgement (C113, C115).

**Announcements that come in.** Like user messages (C111), an announcement that was there before goes on again every time it comes in; only the own channel asks the filter of parts seen before. When the
bucket of its subject is full the announcement does not go on, and the lock of the pheromone table stays taken (C29, C116).

**Updates about who wants or offers a subject.** The filter of such an update is aged in a loop, once for each 0.01 s between the time stamp in the message and now, although nothing is left of it after 16 rounds. With the
longest life a neighbour can choose a time stamp for which the loop runs more than 425 000 000 000 times (C117). For the same reason an update of a node whose clock is 0.16 s behind is always dropped. The copy for a
neighbour on a trail also goes to the best match of the routing table, which may be the same neighbour again or the one the update came from (C118): the list `tmp` of _np_out_pheromone is left empty for these, so the
fallback for an empty search is taken.

**Messages that come in pieces.** There is no limit on the number of incomplete messages a node keeps, and their sender chooses how long they are kept (C119). The filter of messages seen before is emptied whenever the
third root of the number of neighbours changes its whole part (at 8, 27, 64, ... neighbours), and forgets sooner the more neighbours there are: after 16 cleanups with up to 7 neighbours, after 3 with 216.

**The callback of a channel.** A callback can be given only after the channel was opened, and only once for each direction; a second call succeeds if a direction was opened in between, and if that direction is the sending one the
new callback decides from then on also about peers that send (C120). A peer refused by it is let in if the global callback says yes.

**Connections to peers.** The number of attempts to connect is never set back: a peer that took 16 handshakes and joins is given up when its grace
time ends, although it was accepted and answers everything (C88). `_handshake_status` is never set to Connected, so handshakes go on every 5 s until
the peer is accepted. If the first answer arrives before the first average was taken and the clock has not moved, the marker -1 s for an unknown
latency is averaged as if it had been measured (C87). A silent peer is given up without a leave message, and only by the third check (C87).

**Subjects.** np_generate_subject combines texts with exclusive or: the order of texts does not matter, a text used twice disappears, and a
field that was not set to zero gives another subject (C86). np_get_id with length 0 hashes nothing, the documentation says the text is null-terminated
(C86). Two threads in their first np_regenerate_subject cancel the table of names for ever; the smallest allowed buffer (64 bytes) is overrun by one byte (C86).

**Messages of applications.** The sender a callback is told is the attribute "_np.from" of the message, which any application can set for its
own messages: the receiver is told any sender, or ends with a failed assertion if the attribute does not have 32 bytes (C83).
Attributes that were accepted but together exceed 10240 bytes are dropped silently (C83). np_send answers np_ok for messages the full
queue refuses, and never np_invalid_argument for long ones (C84). The answer of a receive callback is dropped: rejecting a message
neither stops the next callback nor its acknowledgement (C85). np_add_receive_cb on a virtual subject answers np_ok without effect (C85).

**Life of a node.** n_threads is a uint32_t in the settings, a uint8_t in np_threads_start_workers and counted by an int8_t: 131 to 255
threads are started without end, 256 means none (C79). Two application threads that call np_run for the first time at once both start
the threads (C79). np_run(0) runs at most one job, the documentation promises all outstanding events (C80). np_add_shutdown_cb
before the first np_run answers np_ok and drops the callback, a NULL callback hides the later ones and the leave notice, a callback that
registers a callback waits for ever on the lock its caller holds (C81). A worker that has found no job and has not yet begun to wait misses the
only wake-up of np_destroy, which then waits for ever; np_run racing with np_destroy revives the node or uses it after it was freed (C82).

**Messages of the network.** A text of one character in a token (realm, issuer, subject, audience) becomes a character when it is
serialised, and the receiver then uses the address of an argument of a call that has returned (C76). A handshake, which anybody can send,
stops the node if its token has no subject (assertion in `np_token_factory_read_from_tree`), if the body has no token, or a value of
another kind in its place, and if the issuer is no text of 64 hex digits; so does an intent whose subject is none (assertion in
`np_str_id`, C77). Nothing ties the tokens in a join or leave to the connection they come over: a node that knows the
public token of another node can end its connections at third nodes, and can join under its name (C78). The duplicate filter of the own
identity (np_comp_identity.c:418-420, 468-470) is looked at but never filled, so that each copy of a token is put to the callback.

**Sockets.** Over TCP, a read that finds only a part of a packet drops this part and a write that is refused inside a packet starts again
at its first byte; both leave the receiver out of step with the stream, and every later packet of the connection is wrong (C74). Over UDP,
an empty datagram from anybody is taken for the end of a connection and disables the listening socket; nothing enables it again. A short
datagram is completed with the beginning of the next datagram, which may be somebody else's and which is lost by it (C75).

**Acknowledgements.** Handlers are stored under message ids but looked up as text; keys of different kinds compare as equal when the
searched kind has the smaller number, so every acknowledgement marks the handler at the root of the tree, whatever message it names,
known or not (T, C72): with two messages on their way, the acknowledgement of one can stop the redelivery of the other, which may be
lost. A zero in place of the message id fails an assertion (T, C72). The check of the handlers looks at the 31 smallest message ids
only: behind 31 messages of long life a late message is never reported and is sent again without end (T, C73).

**Keys of channels.** The ids of the sessions of a pair of intents are computed with the intent of the own node that is announced at the
moment, also when they are to be removed. After a renewal of its intent a sender that loses the intent of a receiver removes
nothing, and sends its next key to that receiver (T, C71). A receiver that gets an intent before its own was announced computes with
fingerprint zero, where all ids coincide, and decrypts with the wrong key (T, C70). The key of a sender is sent once per new pair of
intents; getting the intent of the receiver again does not repeat it.

**Connections.** The sequence number of a packet is written but never checked: a recorded packet is accepted again until its time to
live is over (T). Two nodes with the same handshake priority both act as server and never understand each other (T). Only encrypting a
payload draws a nonce: joins, pings, acknowledgements and intents are sealed with whatever the allocated memory held, so the pair of key
and nonce repeats (T), and a packet that is sent again keeps its nonce under a new sequence number (T); with a stream cipher a listener
gets the difference of the texts.

## Seeded faults

`seeded/LOG.jsonl` has one line for each edit of the model that was tried in a scratch copy. `theorems_failed` names the theorems
whose proof no longer goes through, `lemmas_failed_first` the lemmas below them where the build stopped, `theorems_tightened` the theorems that were
added or made stronger because the edit survived. An edit with neither survived: its `note` says why. Runs that ended without a result
(the edit was ill-typed, or the run was cut off) are logged as inconclusive from the rounds about Issue, Idfile, Metrics, Http, Out, Flood and Scent on;
in the rounds before, they were left out of the log.
