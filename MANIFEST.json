{
 "claims": [
  {
   "property": "C01",
   "status": "proved",
   "theorems": [
    "C01_cmp_is_numeric_order",
    "C01_cmp_zero_iff_equal",
    "C01_cmp_total_order",
    "C01_null_sorts_first",
    "C01_null_null_refuted"
   ],
   "note": "Order laws for all present keys and for a missing key against a present one. Comparing two missing keys answers -1 (recorded as a finding)."
  },
  {
   "property": "C02",
   "status": "proved",
   "theorems": [
    "C02_add_sub_inverse",
    "C02_add_group",
    "C02_results_well_formed",
    "C02_midpoint_involutive",
    "C02_rotate_left_is_256bit_rotation",
    "C02_rotate_left_zero_is_undefined"
   ],
   "note": "Also: 256 bit rotation for shifts 1..31 and involution of the opposite point."
  },
  {
   "property": "C03",
   "status": "partial",
   "theorems": [
    "C03_distance_symmetric",
    "C03_distance_self_zero",
    "C03_distance_bounded_by_half",
    "C03_distance_zero_exactly_partial",
    "C03_identity_of_indiscernibles_refuted",
    "C03_triangle_inequality_refuted",
    "C03_order_agrees_with_ring_refuted"
   ],
   "note": "Symmetry, zero on equal keys and the bound hold. Identity of indiscernibles, the triangle inequality and agreement with the true ring order are refuted by concrete keys."
  },
  {
   "property": "C04",
   "status": "proved",
   "theorems": [
    "C04_between_is_clockwise_arc"
   ],
   "note": ""
  },
  {
   "property": "C05",
   "status": "proved",
   "theorems": [
    "C05_hex_roundtrip",
    "C05_hex_form",
    "C05_parse_total",
    "C05_short_string_is_zero_key",
    "C05_bad_character_is_zero_key",
    "C05_parse_then_print",
    "C05_case_insensitive",
    "C05_hex_injective"
   ],
   "note": "Little endian memory image; sodium_bin2hex/hex2bin modelled from their documentation."
  },
  {
   "property": "C06",
   "status": "proved",
   "theorems": [
    "C06_index_is_common_hex_prefix",
    "C06_index_laws",
    "C06_digits_agree_before_and_differ_at_index",
    "C06_digit_is_hex_digit"
   ],
   "note": ""
  },
  {
   "property": "C07",
   "status": "partial",
   "theorems": [
    "C07_hamming_modulo_256_partial",
    "C07_hamming_exact_unless_complement",
    "C07_hamming_counts_bits_refuted"
   ],
   "note": "Exact unless all 256 bits differ; refuted for complementary keys (8 bit accumulator)."
  },
  {
   "property": "C08",
   "status": "proved",
   "theorems": [
    "C08_history_is_priority_queue",
    "C08_asserts_exact",
    "C08_peek_agrees_with_take",
    "C08_drain_sorted",
    "C08_remove_keeps_order_refuted"
   ],
   "note": "Insert and head removal for any strict weak order and capacity up to 32767. Removal from the middle breaks the order (refuted, recorded as a finding; no caller in the code base)."
  },
  {
   "property": "C09",
   "status": "proved",
   "theorems": [
    "C09_scheduling_order",
    "C09_no_loss_no_duplication_never_early",
    "C09_selection_is_earliest",
    "C09_submission_answer_exact",
    "C09_small_queue_setting_refuted",
    "C09_periodic_rescheduled"
   ],
   "note": "Times are integers (no floating point rounding or NaN). A configured queue size below 511 turns the refusal into a failed assertion (refuted)."
  },
  {
   "property": "C10",
   "status": "partial",
   "theorems": [
    "C10_each_job_handed_out_at_most_once",
    "C10_distinct_jobs_taken_once",
    "C10_never_stuck",
    "C10_not_early_unless_overtaken_partial",
    "C10_never_early_refuted"
   ],
   "note": "Exactly-once delivery holds for all interleavings. 'Never before it is due' holds unless another worker removes a job between the look and the removal; refuted in general with a concrete interleaving."
  },
  {
   "property": "C11",
   "status": "proved",
   "theorems": [
    "C11_single_list_history",
    "C11_double_list_history",
    "C11_priority_list_history",
    "C11_single_list_insert_after",
    "C11_single_list_delete_at",
    "C11_double_list_delete_at",
    "C11_single_list_clone",
    "C11_single_list_merge",
    "C11_double_list_clear",
    "C11_priority_list_replace",
    "C11_single_list_find",
    "C11_single_list_clear_then_use_refuted",
    "C11_priority_list_find_refuted",
    "C11_default_comparison_admits_duplicates_refuted"
   ],
   "note": "Pointer level model of SLL, DLL and PLL; any history of operations equals the sequence operations. Clear of a single linked list, find on a priority list and the default comparison are refuted."
  },
  {
   "property": "C12",
   "status": "proved",
   "theorems": [
    "C12_first_write_wins",
    "C12_key_prefix_decides",
    "C12_contract"
   ],
   "note": "All histories of get/add on a table of any size with any keyed hash."
  },
  {
   "property": "C13",
   "status": "proved",
   "theorems": [
    "C13_height_bounds",
    "C13_random_all_ones_refuted",
    "C13_sorted_set_history",
    "C13_membership_after_history"
   ],
   "note": "Pointer level model; all histories, all random numbers (except 2^31-1, undefined behaviour in the C code, C13_random_all_ones_refuted), all fresh addresses."
  },
  {
   "property": "C14",
   "status": "partial",
   "theorems": [
    "C14_store",
    "C14_no_room",
    "C14_merge",
    "C14_refused",
    "C14_length_24_refuted",
    "C14_replace_refuted",
    "C14_negative_refuted"
   ],
   "note": "Proved for every history of writes, merges and iterations whose entries have a correctly calculated size (C14_store, C14_no_room, C14_merge). Refuted for key or value lengths of 24, values longer than 65535 bytes and the negative numbers -256 and -65536, where the block is corrupted or the call aborts."
  },
  {
   "property": "C15",
   "status": "partial",
   "theorems": [
    "C15_exact",
    "C15_sufficient",
    "C15_refuted"
   ],
   "note": "Proved exact for all entries outside the exceptions of C14 and sufficient for every buffer; refuted for lengths of 24."
  },
  {
   "property": "C16",
   "status": "partial",
   "theorems": [
    "C16_no_policy",
    "C16_admitted",
    "C16_decision",
    "C16_size_refuted",
    "C16_unreadable",
    "C16_both_directions",
    "C16_other_key_refuted",
    "C16_inbound_result_refuted",
    "C16_intent"
   ],
   "note": "Proved: without a policy everything is admitted; every attribute set that meets the policy is admitted; the decision equals the bloom filter test of the required items against the attributes, up to the capacity of 64 items. Refuted: more than 64 items (each attribute counts three times) abort the node, a required value may be the value of another key, an inbound-only policy reports an error although it was set."
  },
  {
   "property": "C17",
   "status": "partial",
   "theorems": [
    "C17_effects",
    "C17_no_rule",
    "C17_never_crashes",
    "C17_first_enabled",
    "C17_none_enabled",
    "C17_cases",
    "C17_table",
    "C17_follow_up_refuted",
    "C17_explicit_refuted"
   ],
   "note": "First enabled rule only, action/exit/entry once and in that order, no rule leaves everything unchanged, never crashes for well formed tables; with arbitrary callback effects as long as callbacks do not move the machine themselves. Refuted: a follow-up transition inside an action runs the entry function of the state that was left again; the explicit transition gives up at the first failing rule."
  },
  {
   "property": "C18",
   "status": "partial",
   "theorems": [
    "C18_map",
    "C18_copy",
    "C18_ulong_refuted",
    "C18_int_refuted",
    "C18_mixed_refuted",
    "C18_long_refuted"
   ],
   "note": "proved for keys of one kind: strings up to 255 bytes, dhkeys, uuids, doubles, int and ulong keys within a window of 32768 values; refuted with witnesses for wider ulong and int keys, mixed kinds and longer strings"
  },
  {
   "property": "C19",
   "status": "partial",
   "theorems": [
    "C19_value_size",
    "C19_tree_size",
    "C19_uint_refuted",
    "C19_hash_refuted"
   ],
   "note": "proved for all values and all trees, except unsigned ints from 32768 on, hashes of 256 bytes and more (both refuted) and the smallest int32_t and int64_t (undefined negation)"
  },
  {
   "property": "C20",
   "status": "partial",
   "theorems": [
    "C20_standard",
    "C20_standard_intersect",
    "C20_scalable",
    "C20_scalable_overflow_refuted",
    "C20_odd_size_refuted",
    "C20_decaying",
    "C20_stable",
    "C20_stable_forgets_refuted"
   ],
   "note": "Proved exactly for standard filters (add, union, intersect), decaying filters (every history), stable filters (immediate check) and scalable filters up to 255 blocks / 16 bit offsets; beyond that, for sizes that are not a multiple of 8, and for stable filters after another add, the statement is refuted."
  },
  {
   "property": "C21",
   "status": "partial",
   "theorems": [
    "C21_partial",
    "C21_few_items",
    "C21_saturation_refuted",
    "C21_full_refuted"
   ],
   "note": "Proved while no cell counts to 255 and the filter is not full (in particular up to 31 items at a time); refuted for cells that saturate, and for removal from a full filter."
  },
  {
   "property": "C22",
   "status": "partial",
   "theorems": [
    "C22_exact",
    "C22_ageing",
    "C22_heuristic",
    "C22_intersect",
    "C22_comparisons",
    "C22_contains_parts",
    "C22_remove",
    "C22_remove_refuted",
    "C22_remove_full_refuted",
    "C22_intersect_age_partial",
    "C22_intersect_age_refuted"
   ],
   "note": "Add, check, union, ageing, intersections, comparisons proved exactly for up to 64 items; removals proved for up to three items; refuted: eight removals, removal from a full filter, age of intersections with 32 or 64 items."
  },
  {
   "property": "C23",
   "status": "partial",
   "theorems": [
    "C23_signature",
    "C23_order_independent",
    "C23_tree",
    "C23_merge_partial",
    "C23_merge_refuted",
    "C23_similarity",
    "C23_different_sizes_refuted",
    "C23_single_repetition_refuted",
    "C23_fix_order_refuted",
    "C23_flex_growth_refuted",
    "C23_tree_long_value_refuted",
    "C23_different_kinds",
    "C23_value"
   ],
   "note": "Multi mode (the default): signature exactly the min/max signature of the token set (hence order and repetition independent), trees contribute exactly their shingles, similarity symmetric, bounded and maximal for equal signatures. Merge equals the union except at one position (refuted there). Single, fixed and flexible modes depend on repetition, order or uninitialised memory (refuted)."
  },
  {
   "property": "C24",
   "status": "proved",
   "theorems": [
    "C24_in_range",
    "C24_word_by_word",
    "C24_uniform",
    "C24_full_period",
    "C24_initialised",
    "C24_zero_bound_refuted"
   ],
   "note": "Termination (full period of the congruential step), range, exact uniformity over the 2^32 raw words, initialisation; bound zero is undefined behaviour."
  },
  {
   "property": "C25",
   "status": "partial",
   "theorems": [
    "C25_map_partial",
    "C25_short",
    "C25_walk",
    "C25_missing",
    "C25_data_partial",
    "C25_union_partial",
    "C25_lost_refuted",
    "C25_emptied_refuted",
    "C25_dangling_refuted",
    "C25_intersect_refuted",
    "C25_intersect_one"
   ],
   "note": "Proved for keys of up to 8191 bytes while the trie is never emptied and a new key agrees loosely with the present ones (always so for keys of one byte): lookup, walk in key order, union, removal. Refuted in general: an insert can make an earlier key unreachable, an emptied trie makes the next insert undefined, a removal can hand out freed memory, an intersection keeps keys that are only in one trie (what an intersection with one key does is C25_intersect_one)."
  },
  {
   "property": "C26",
   "status": "proved",
   "theorems": [
    "C26_total",
    "C26_places",
    "C26_update",
    "C26_life_total",
    "C26_once",
    "C26_leave",
    "C26_all_schedules",
    "C26_leave_all_schedules",
    "C26_schedules_total",
    "C26_flag_race_refuted",
    "C26_once_refuted"
   ],
   "note": "All histories of joins and leaves through the handlers of np_comp_node.c, one after the other and under all schedules of any number of threads: places, counter, references, at most once, complete leave. The routing module alone does not keep 'at most once' (C26_once_refuted), and with several threads the flag may be wrong (C26_flag_race_refuted)."
  },
  {
   "property": "C27",
   "status": "partial",
   "theorems": [
    "C27_leafset",
    "C27_update",
    "C27_flags",
    "C27_neighbors",
    "C27_closest_refuted"
   ],
   "note": "Sorted, bounded, duplicate free, own id never inside, only the farthest is displaced, counters, flags and references: proved for all histories. That the leafset holds the closest nodes is false (C27_closest_refuted): admission goes by the ring, the order by the distance of the library."
  },
  {
   "property": "C28",
   "status": "partial",
   "theorems": [
    "C28_closest",
    "C28_closest_of_none",
    "C28_sort_by_distance",
    "C28_sort_by_prefix",
    "C28_exact_refuted"
   ],
   "note": "Closest key and both sorts proved for all lists (including termination of the pass loop within n*n passes). Distance is the distance of the code base (C03); since different keys can have distance zero, the key searched for itself can be missed (C28_exact_refuted)."
  },
  {
   "property": "C29",
   "status": "partial",
   "theorems": [
    "C29_bounded",
    "C29_total",
    "C29_found",
    "C29_sound",
    "C29_kept_partial",
    "C29_forgotten",
    "C29_replace_partial",
    "C29_oldest_refuted",
    "C29_kept_refuted",
    "C29_lock_refuted",
    "C29_decay_refuted",
    "C29_equal_refuted",
    "C29_filter_refuted"
   ],
   "note": "Proved for all histories: bounds for arbitrary filters (C29_bounded), totality with at most 30 subjects per bucket, an inhaled pheromone is found at once, answers are sound, kept while strength lasts (under the stated load limits), forgotten after 32 decays, a full list loses exactly one and never the new source. Refuted with witnesses: the one dropped is not the oldest; 16+16 sources are dropped by the next decay; 31 subjects in a bucket leave the table locked for ever; decay with 31 entries reads behind the array; of two equally distant neighbours the second is lost; a crowded remote filter aborts the node."
  },
  {
   "property": "C30",
   "status": "proved",
   "theorems": [
    "C30_once_in_order",
    "C30_kept_alive",
    "C30_released_last",
    "C30_capacity"
   ],
   "note": "All event programs (handlers may add events or start nested chains at any point). Abort at the 256th event of a chain is stated as C30_capacity. Events addressed to unknown keys are dropped by the handler itself, not by the chain."
  },
  {
   "property": "C31",
   "status": "partial",
   "theorems": [
    "C31_chunk_count_small",
    "C31_chunk_count_large_refuted"
   ],
   "note": "Proved for every body up to 72 chunks (64800 bytes); for every larger body the announced count is too small (16 bit cut before the division), proved as C31_chunk_count_large_refuted."
  },
  {
   "property": "C32",
   "status": "partial",
   "theorems": [
    "C32_any_order_reassembles",
    "C32_not_complete_while_missing",
    "C32_first_chunk_first_tolerates_duplicates",
    "C32_duplicate_and_reorder_refuted",
    "C32_id_wrap_refuted",
    "C32_foreign_chunk_number_refuted",
    "C32_zero_parts_refuted"
   ],
   "note": "Every arrival order without duplicates, and every arrival sequence with duplicates that starts with the first chunk, reassembles the message; reorder plus duplicate, mac wrap-around and foreign chunk numbers are refuted."
  },
  {
   "property": "C33",
   "status": "partial",
   "theorems": [
    "C33_round_trip_partial",
    "C33_delivery_partial",
    "C33_unfit_refuted",
    "C33_overread_refuted",
    "C33_type_refuted"
   ],
   "note": "Proved for bodies whose calculated size is enough and up to 64800 bytes (72 packets), if packet numbers do not run over the two byte counter: any order of packets gives back header fields and body, and user data reaches the callback unchanged. Refuted: a body that is larger than calculated is replaced by random bytes silently, the decoder reads up to 124 bytes behind the message, user data of a number type is used as a pointer."
  },
  {
   "property": "C34",
   "status": "proved",
   "theorems": [
    "C34_life_cycle",
    "C34_operations",
    "C34_accounting",
    "C34_minimum_kept"
   ],
   "note": "For every pool, callback set and history of operations on references held: callbacks follow the life cycle, references and liveness agree, release returns the remaining count and recycles exactly at zero, counters are exact, no item is lost or listed twice, the pool keeps its minimum. Addresses are assumed not to be reused after free(); statistics only decide whether the pool shrinks."
  },
  {
   "property": "C35",
   "status": "partial",
   "theorems": [
    "C35_owned_objects_safe_partial",
    "C35_no_leak_partial",
    "C35_recycled_while_owned_refuted",
    "C35_owned_object_available_refuted",
    "C35_use_after_free_refuted"
   ],
   "note": "Every interleaving of any number of threads in which the delayed np_memory_free meets neither a deleted object nor one just being handed out is safe and leaks nothing. Without that condition the claim is false: witness schedules give one object two owners, put an owned object on the free list, and read a deleted item."
  },
  {
   "property": "C36",
   "status": "partial",
   "theorems": [
    "C36_valid_iff_acceptable",
    "C36_check_records_verdict",
    "C36_every_history_of_checks",
    "C36_not_before_refuted",
    "C36_self_signed_identity_accepted"
   ],
   "note": "Validity holds exactly for acceptable tokens (type, expiry, both signatures, counters) and after every history of checks; self-signed identities are accepted until expiry. The not_before date is never checked, so that part of the statement is refuted."
  },
  {
   "property": "C37",
   "status": "partial",
   "theorems": [
    "C37_honest_issuer_accepted_with_attributes",
    "C37_forged_issuer_accepted_with_attributes_refuted",
    "C37_issuer_signed_partial",
    "C37_named_issuer_required",
    "C37_honest_issuer_accepted",
    "C37_forged_issuer_accepted_refuted",
    "C37_attribute_type_unchecked_refuted"
   ],
   "note": "Fingerprint, validity, authentication and own signatures are required and honest issuing works; but the issuer signature is verified with a key taken from the token itself, so a forged issuer is accepted (refuted), and a mistyped attribute is undefined behaviour (refuted)."
  },
  {
   "property": "C38",
   "status": "partial",
   "theorems": [
    "C38_signed_bytes_determine_fields",
    "C38_realm_issuer_swap_refuted",
    "C38_subject_audience_shift_refuted",
    "C38_type_not_signed_refuted"
   ],
   "note": "Proved for tokens whose string fields have equal lengths; refuted in general: fields are concatenated without separators, and the type is not covered."
  },
  {
   "property": "C39",
   "status": "partial",
   "theorems": [
    "C39_user_roundtrip",
    "C39_subject_kept",
    "C39_internal_roundtrip",
    "C39_realm_name_lost_refuted"
   ],
   "note": "Both directions are lossless for id strings that are empty or lower case hex; a realm set by name is lost (refuted)."
  },
  {
   "property": "C40",
   "status": "partial",
   "theorems": [
    "C40_expires_exactly_after_ttl",
    "C40_attempts_fit_into_ttl",
    "C40_short_ttl_refuted"
   ],
   "note": "Expiry and ttl split proved; refuted when the configured ttl is below one second per attempt."
  },
  {
   "property": "C41",
   "status": "partial",
   "theorems": [
    "C41_use_token_refuted"
   ],
   "note": "Refuted: np_use_token rejects every token because the type of the imported token is never set."
  },
  {
   "property": "C42",
   "status": "partial",
   "theorems": [
    "C42_limit_partial",
    "C42_dropped_only_over_limit",
    "C42_no_limit_refuted",
    "C42_burst_refuted",
    "C42_slow_traffic_refuted"
   ],
   "note": "The bound max+1 per peer is proved while no counter reaches 255, and drops only happen over the limit. Refuted: the default limit never drops anything, a burst of more than 4096 packets and 4097 slow packets stop the process."
  },
  {
   "property": "C43",
   "status": "partial",
   "theorems": [
    "C43_no_duplicate_partial",
    "C43_concurrent_refuted",
    "C43_resize_refuted",
    "C43_cleanup_hangs_refuted",
    "C43_flood_refuted"
   ],
   "note": "Proved for one thread and every history without resizing; refuted for two threads, after resizing, with 512 peers or more, and when more messages arrive than the filter holds."
  },
  {
   "property": "C44",
   "status": "proved",
   "theorems": [
    "C44_table",
    "C44_messages_need_acceptance",
    "C44_asked_about_valid_tokens"
   ],
   "note": "key state machine as a system of concurrent activations; conditions read arbitrary views; every schedule. C44_table: the transition table is built without failure"
  },
  {
   "property": "C45",
   "status": "proved",
   "theorems": [
    "C45_removed_keys_are_inert"
   ],
   "note": "any nesting of activations"
  },
  {
   "property": "C46",
   "status": "partial",
   "theorems": [
    "C46_unencrypted_is_handshake",
    "C46_data_needs_acceptance",
    "C46_own_token_refuted"
   ],
   "note": "proved for 'accepted a token that is presented for the node or names the node as its partner'; C46_own_token_refuted: an identity token with a self-claimed partner opens a node whose own token was never presented"
  },
  {
   "property": "C47",
   "status": "proved",
   "theorems": [
    "C47_shut_down_connections_are_silent"
   ],
   "note": "for schedules without nested activations on one key"
  },
  {
   "property": "C48",
   "status": "proved",
   "theorems": [
    "C48_disabled_subjects_are_silent",
    "C48_messages_need_a_session"
   ],
   "note": "first part for schedules without nested activations on one key"
  },
  {
   "property": "C49",
   "status": "proved",
   "theorems": [
    "C49_balanced"
   ],
   "note": "for every history with any keys"
  },
  {
   "property": "C50",
   "status": "partial",
   "theorems": [
    "C50_value_round_trip",
    "C50_tree_round_trip",
    "C50_short_key_refuted",
    "C50_uuid_key_refuted",
    "C50_short_string_refuted",
    "C50_large_number_refuted"
   ],
   "note": "proved for trees of every nesting with keys of one kind and values of the supported types; refuted for keys and strings of one character, uuid keys and unsigned numbers from 2^63 on"
  },
  {
   "property": "C51",
   "status": "proved",
   "theorems": [
    "C51_map",
    "C51_references",
    "C51_balanced"
   ],
   "note": "Each call is atomic (module lock). Object addresses are not reused in the model."
  },
  {
   "property": "C52",
   "status": "partial",
   "theorems": [
    "C52_every_key",
    "C52_changing_cache_refuted"
   ],
   "note": "Proved while the set of keys does not change: at most 2*(n/10+1) runs. Refuted while keys come and go: a key can be left out indefinitely (witness with 12 keys and 20 runs)."
  },
  {
   "property": "C53",
   "status": "partial",
   "theorems": [
    "C53_lookup",
    "C53_neighbour",
    "C53_progress",
    "C53_own_id",
    "C53_row",
    "C53_empty_leafset_refuted",
    "C53_bad_link_refuted",
    "C53_bounce_refuted"
   ],
   "note": "Exact answer of the search for all histories, targets and counts; progress of prefix routing for all paths; own id aborts (C53_own_id). False without a usable onward neighbour (C53_bounce_refuted), with an empty leafset and count 1 (C53_empty_leafset_refuted), and bad links may be chosen (C53_bad_link_refuted)."
  },
  {
   "property": "C54",
   "status": "partial",
   "theorems": [
    "C54_first_packet_partial",
    "C54_parts_refuted"
   ],
   "note": "Proved for handshakes of one part and everything that is not a handshake; refuted for every other number of parts (unallocated write or failed assertion)."
  },
  {
   "property": "C55",
   "status": "partial",
   "theorems": [
    "C55_read_back_partial",
    "C55_effective_partial",
    "C55_defaults_partial",
    "C55_unique_partial",
    "C55_keeps_partial",
    "C55_audience_refuted",
    "C55_provider_refuted",
    "C55_reply_refuted",
    "C55_dangling_refuted",
    "C55_revert_refuted",
    "C55_fraction_refuted"
   ],
   "note": "Proved over all histories of legal calls for what is read back, what takes effect and what stays, except audience, reply id, fractions of seconds and channels that only send: refuted, one of them with a dangling pointer."
  },
  {
   "property": "C56",
   "status": "partial",
   "theorems": [
    "C56_bounded_partial",
    "C56_accounted_partial",
    "C56_order_partial",
    "C56_follows_partial",
    "C56_released_partial",
    "C56_overflow_partial",
    "C56_blocked_refuted",
    "C56_shrunk_refuted",
    "C56_overtaken_refuted",
    "C56_abort_refuted"
   ],
   "note": "Bound, accounting of all messages, order of release, release of all, overflow rules proved; refuted: a message without session blocks the others, a lowered cache size stops the cache, new messages overtake waiting ones, more than 254 waiting messages abort."
  },
  {
   "property": "C57",
   "status": "partial",
   "theorems": [
    "C57_never_blocks_partial",
    "C57_unlimited_refuted",
    "C57_stuck_refuted"
   ],
   "note": "The limit never holds back a message while it is not lowered (proved); it limits nothing and lowering it can stop the channel for ever (refuted)."
  },
  {
   "property": "C58",
   "status": "partial",
   "theorems": [
    "C58_once_partial",
    "C58_default_refuted",
    "C58_resent_refuted",
    "C58_suppressed_refuted"
   ],
   "note": "Proved with settings made by np_set_mx_properties, uuids with a fixed expiry and messages in time; refuted without np_set_mx_properties, for redelivered copies, and for forged messages with the same uuid."
  },
  {
   "property": "C61",
   "status": "partial",
   "theorems": [
    "C61_disabled_sends_nothing_partial",
    "C61_enabled_sends_partial",
    "C61_receive_refuted",
    "C61_settings_lost_refuted"
   ],
   "note": "A disabled channel sends nothing and sends again when enabled (proved); it still receives and loses its settings (refuted)."
  },
  {
   "property": "C59",
   "status": "partial",
   "theorems": [
    "C59_only_accepted_partial",
    "C59_gets_session_partial",
    "C59_no_ub_partial",
    "C59_takeover_refuted",
    "C59_takeover_uuid_refuted",
    "C59_issuer_refuted",
    "C59_realm_refuted",
    "C59_no_own_refuted",
    "C59_expired_own_refuted"
   ],
   "note": "Proved for all histories without intents that ask for a single partner: every session key, every secret the own key is sent under and every partner shown belongs to a key that was admitted and accepted; an accepted peer gets its sessions (own intent present, no other intent with the same key and uuid waiting); no undefined behaviour while own intents are valid. Refuted: single-partner intents inherit the permission of another peer; another issuer with the same key and uuid is never asked about; with a realm an open channel lets nobody in; acceptance before the first own intent and an expired own intent read an empty list."
  },
  {
   "property": "C60",
   "status": "partial",
   "theorems": [
    "C60_nobody_partial",
    "C60_answer_partial",
    "C60_no_overruled_refuted",
    "C60_other_direction_refuted",
    "C60_yes_lost_refuted"
   ],
   "note": "Proved for all histories: without a yes (or for a realm client) nobody gets a session, nothing is sent, nobody is shown; with only one callback in effect its answer counts. Refuted: the global callback overrules a no of the channel; the sending callback replaces the answer of the receiving one; a repeated intent loses a yes."
  },
  {
   "property": "C62",
   "status": "partial",
   "theorems": [
    "C62_ends_partial",
    "C62_former_id_refuted",
    "C62_handed_over_refuted"
   ],
   "note": "Proved: after as many checks as intents known exactly the valid ones are left and the others have no session under the current id (own intents valid, no single partner). Refuted: sessions made under a former own intent, and keys handed over by the sender, stay."
  },
  {
   "property": "C63",
   "status": "partial",
   "theorems": [
    "C63_ids_partial",
    "C63_replaced_refuted",
    "C63_zero_refuted"
   ],
   "note": "Proved for all histories: a key agreed with a peer is stored only under ids made from an intent with that peer's key. Refuted: an accepted sender replaces the key another one handed over, and can make another peer's session use a key of zeros."
  },
  {
   "property": "C64",
   "status": "partial",
   "theorems": [
    "C64_round_trip",
    "C64_get_address_partial",
    "C64_other_interface_refuted",
    "C64_unterminated_refuted"
   ],
   "note": "Reading an address gives back its parts for every well-formed address; the reported address is that of the first request that could be met, for every history, if no other address of the machine continues its text (else refuted); a buffer of exactly the length is not terminated (refuted)."
  },
  {
   "property": "C65",
   "status": "partial",
   "theorems": [
    "C65_only_asked",
    "C65_listens_partial",
    "C65_second_port_refuted",
    "C65_not_bound_refuted",
    "C65_default_port_refuted"
   ],
   "note": "The node listens only where np_listen was told to, for every history. np_listen listens if the address is not the main one and bind succeeds; refuted: second port on the main address, failing bind, port 0."
  },
  {
   "property": "C66",
   "status": "partial",
   "theorems": [
    "C66_join_partial",
    "C66_only_named_partial",
    "C66_refused",
    "C66_typo_refuted",
    "C66_malformed_refuted",
    "C66_lookalike_refuted",
    "C66_long_host_refuted",
    "C66_no_interface_refuted"
   ],
   "note": "A well-formed address leads to a join of the named node if no known node looks alike and the peer counts as reachable; a join only goes where the address says. Refuted: unreadable addresses give np_ok, a typo in the fingerprint joins anyone, lookalikes suppress joins, long host names are cut, abort without interface."
  },
  {
   "property": "C67",
   "status": "partial",
   "theorems": [
    "C67_decision_partial",
    "C67_same_address_refuted",
    "C67_loopback_refuted"
   ],
   "note": "The decision is characterised for every pair of addresses, IPv4 and IPv6, for the chosen and the main interface. Refuted: equal private IPv4 addresses are undefined behaviour; 127.0.1.1 is not taken as loopback."
  },
  {
   "property": "C68",
   "status": "partial",
   "theorems": [
    "C68_readable_partial",
    "C68_path_partial",
    "C68_delivery_partial",
    "C68_in_time",
    "C68_authentic",
    "C68_equal_priority_refuted",
    "C68_replay_refuted"
   ],
   "note": "Proved: linked nodes read each other in both directions, any path of hops keeps the content and counts hops, end to end delivery of a user message over per-packet paths (composed with C33), and authenticity (accepted packets were sent by that peer to this node). Laws of key exchange and cipher are hypotheses with an instance. Refuted: equal handshake priorities give keys that never match; replayed packets are accepted."
  },
  {
   "property": "C69",
   "status": "partial",
   "theorems": [
    "C69_user_partial",
    "C69_user_message",
    "C69_internal_refuted",
    "C69_repeat_refuted"
   ],
   "note": "Proved for user messages (nonce drawn at random, distinct in bytes 2..11): all packets over a connection have pairwise different nonces, any number of messages. Refuted for messages of the protocol itself (nonce never drawn) and for packets that are sent again."
  },
  {
   "property": "C70",
   "status": "partial",
   "theorems": [
    "C70_agree_partial",
    "C70_key_arrives_partial",
    "C70_new_key_arrives_partial",
    "C70_unannounced_refuted"
   ],
   "note": "Agreement at every id and delivery of keys are proved for all histories with fingerprints whose sums and exclusive ors do not collide; missing: a receiver that gets intents before its own is announced (refuted), waiting messages without session (C56)."
  },
  {
   "property": "C71",
   "status": "partial",
   "theorems": [
    "C71_private_partial",
    "C71_shared_partial",
    "C71_removed_partial",
    "C71_renewed_refuted"
   ],
   "note": "Private keys with two nodes only, shared keys only with nodes whose intent was received, none after removal; missing: removal after the sender announced another intent (refuted)."
  },
  {
   "property": "C72",
   "status": "partial",
   "theorems": [
    "C72_single_partial",
    "C72_any_refuted",
    "C72_ack_refuted",
    "C72_null_refuted"
   ],
   "note": "Proved when one message is on its way. In general false: an acknowledgement marks the root of the tree of handlers, whatever it names (refuted for every state with two messages); a zero as message id aborts"
  },
  {
   "property": "C73",
   "status": "partial",
   "theorems": [
    "C73_stamps",
    "C73_resent",
    "C73_silent",
    "C73_reports",
    "C73_ends_partial",
    "C73_starved_refuted"
   ],
   "note": "Time stamps, single resends, silence after the report, single reports proved for all histories. That every wait ends is proved when no new message is sent; refuted otherwise (31 long-lived messages hide a late one for ever)"
  },
  {
   "property": "C74",
   "status": "partial",
   "theorems": [
    "C74_in_order_partial",
    "C74_all_arrive_partial",
    "C74_cut_read_refuted",
    "C74_none_right_refuted",
    "C74_resent_refuted",
    "C74_reachable"
   ],
   "note": "Proved for any segmentation within an event and any refusals between packets; refuted for events interrupted inside a packet: a read throws the part away and a write repeats it, after which every later packet is wrong."
  },
  {
   "property": "C75",
   "status": "partial",
   "theorems": [
    "C75_full_partial",
    "C75_empty_refuted",
    "C75_stranger_refuted",
    "C75_short_refuted",
    "C75_short_alone",
    "C75_routed",
    "C75_limited",
    "C75_switch",
    "C75_only_empty"
   ],
   "note": "Proved for datagrams of at least packet size, for single short ones, routing to owner or alias, and the on/off switch; refuted for the rest: an empty datagram from anybody ends listening for good, a short one merges with the datagram behind it under that sender's address."
  },
  {
   "property": "C76",
   "status": "partial",
   "theorems": [
    "C76_round_trip_partial",
    "C76_sent_as_is",
    "C76_arrives_valid_partial",
    "C76_short_text_refuted",
    "C76_complete"
   ],
   "note": "Proved for every token whose texts are not one character long (round trip through the tree, its serialised form and the decoder; acceptance until expiry), and that nothing incomplete or with a key off the curve is read. Refuted for texts of one character: the receiver reads a stale pointer."
  },
  {
   "property": "C77",
   "status": "partial",
   "theorems": [
    "C77_well_formed_partial",
    "C77_own_messages",
    "C77_missing_field_refuted",
    "C77_wrong_kind_refuted",
    "C77_short_field_refuted",
    "C77_no_subject_refuted",
    "C77_attributes_size_refuted",
    "C77_partner_refuted",
    "C77_piggy_refuted",
    "C77_scent_refuted",
    "C77_lists_partial",
    "C77_scents",
    "C77_no_id_refuted",
    "C77_lists_read"
   ],
   "note": "Proved: every well formed body whose token names an id where one is used (subject of an intent, issuer of a handshake or update), in particular every body made of tokens of a node, is handled. Refuted by missing fields, fields of another kind or size, tokens without a subject (one handshake of a stranger aborts the node), subjects and issuers that are no ids, attribute blocks with a wrong size, partners that are no fingerprints, gaps in lists of nodes and places of scents."
  },
  {
   "property": "C78",
   "status": "partial",
   "theorems": [
    "C78_partner",
    "C78_join_partial",
    "C78_leave_partial",
    "C78_leave_refuted",
    "C78_join_stranger_refuted",
    "C78_update",
    "C78_intent",
    "C78_handshake",
    "C78_own_messages_act"
   ],
   "note": "Proved: joins and leaves act only with tokens signed by the key in them, joined to each other in the case of an identity. Refuted: nothing ties the tokens to the connection, so any peer that knows the token of a node ends that node's connections or joins under its name."
  },
  {
   "property": "C79",
   "status": "partial",
   "theorems": [
    "C79_threads_partial",
    "C79_endless_refuted",
    "C79_lowest_byte_refuted",
    "C79_started_once_partial",
    "C79_not_again",
    "C79_work_only_while_running",
    "C79_two_callers_refuted"
   ],
   "note": "Proved: for 0..130 threads exactly that many are started, one manager, each loop served once; threads are started at most once if one application thread makes the calls, and never again after np_run has set the node running. Refuted: 131..255 start threads without end (int8_t counter), only the lowest byte of n_threads counts (256 = none), two concurrent first calls of np_run start the threads twice. Threads work only while the node is running (C79_work_only_while_running)."
  },
  {
   "property": "C80",
   "status": "partial",
   "theorems": [
    "C80_runs_for_the_time",
    "C80_no_loss_no_duplication_never_early",
    "C80_zero",
    "C80_outstanding_refuted"
   ],
   "note": "Proved for all queues and clocks: returns at the first check at or after the end time (or end of the node), at most one job per check; no job is lost, duplicated or run early. Refuted: np_run(0) runs at most one job and leaves due jobs waiting."
  },
  {
   "property": "C81",
   "status": "partial",
   "theorems": [
    "C81_once_in_order_partial",
    "C81_before_run_refuted",
    "C81_null_refuted",
    "C81_nested_refuted"
   ],
   "note": "Proved for all histories in which the callbacks are registered after the first np_run, are not NULL and do not register callbacks. Refuted: earlier registrations are dropped with np_ok, a NULL callback hides the later ones and the leave notice, a callback that registers one hangs np_destroy."
  },
  {
   "property": "C82",
   "status": "partial",
   "theorems": [
    "C82_threads_have_ended",
    "C82_nothing_afterwards",
    "C82_destroy_returns_partial",
    "C82_lost_wakeup_refuted",
    "C82_revived_refuted",
    "C82_used_after_free_refuted"
   ],
   "note": "Proved for every schedule and any number of callers: a freed node has no live thread; np_destroy returns within 6 steps per thread + 5 if no worker is between looking for a job and waiting and no other call is under way. Refuted: lost wake-up of a worker makes np_destroy wait for ever, a concurrent np_run sets the status back to running, np_run uses the freed node."
  },
  {
   "property": "C83",
   "status": "partial",
   "theorems": [
    "C83_delivered_partial",
    "C83_all_attributes",
    "C83_any_sender_refuted",
    "C83_receiver_aborts_refuted",
    "C83_attribute_dropped_refuted",
    "C83_truncated_refuted",
    "C83_no_data",
    "C83_number_as_data_refuted"
   ],
   "note": "Proved for every message up to 2^32-1 bytes and every history of attributes: body written, read back and converted gives the same data, sender and attributes (those that had room; all if they fit). Missing: attributes under the reserved key _np.from (refuted: any sender, or abort of the receiver), accepted attributes dropped when they exceed a message (refuted), 4 GB messages (refuted), user data that is no byte string (refuted). Packets, encryption and routing in between are C33, C54, C68."
  },
  {
   "property": "C84",
   "status": "partial",
   "theorems": [
    "C84_answer_partial",
    "C84_lost_refuted",
    "C84_no_limit_refuted"
   ],
   "note": "Answer and queueing proved for every reachable queue with room; refuted: np_ok for messages dropped by a full queue, no answer for over-long messages."
  },
  {
   "property": "C85",
   "status": "partial",
   "theorems": [
    "C85_in_order_partial",
    "C85_not_again",
    "C85_checked_first",
    "C85_as_documented",
    "C85_rejection_refuted",
    "C85_not_registered_refuted"
   ],
   "note": "Order, once each, duplicates and failed checks proved for all lists of callbacks; refuted: answer false is ignored, virtual subjects answer np_ok without registering."
  },
  {
   "property": "C86",
   "status": "partial",
   "theorems": [
    "C86_subject_is_id_partial",
    "C86_field_must_be_cleared_refuted",
    "C86_sequence",
    "C86_order_refuted",
    "C86_twice_refuted",
    "C86_length_zero_refuted",
    "C86_names_partial",
    "C86_first_calls_refuted",
    "C86_buffer_refuted"
   ],
   "note": "Proved: subject of a text in a cleared field is its hash and its id; sequences combine by exclusive or; names are found again by one thread and by any threads after the first call returned. Refuted: order of texts is irrelevant and repeated texts cancel, uncleared fields change the subject, length 0 gives one id for all texts, concurrent first calls of np_regenerate_subject destroy the table, a 64 byte buffer is overrun."
  },
  {
   "property": "C87",
   "status": "partial",
   "theorems": [
    "C87_average",
    "C87_kept_partial",
    "C87_given_up",
    "C87_silence_counts",
    "C87_short_silence_kept",
    "C87_asked_again",
    "C87_not_flooded",
    "C87_leaves_once",
    "C87_table_out",
    "C87_table_in",
    "C87_latency_partial",
    "C87_latency_refuted"
   ],
   "note": "Proved for all histories that were accepted within 15 attempts to connect; the latency claim needs a clock that moves between question and answer, refuted otherwise (C87_latency_refuted). Times are integers, doubles are not modelled."
  },
  {
   "property": "C88",
   "status": "partial",
   "theorems": [
    "C88_not_flooded",
    "C88_tried_again",
    "C88_ends",
    "C88_not_before",
    "C88_accepted_late_refuted"
   ],
   "note": "Retry, spacing and end proved for all histories; the claim that a slowly accepted peer is kept is false of the code (C88_accepted_late_refuted)."
  },
  {
   "property": "C89",
   "status": "partial",
   "theorems": [
    "C89_different_partial",
    "C89_input_complete",
    "C89_same_time_refuted",
    "C89_lost_refuted"
   ],
   "note": "Proved: ids are equal only for the same sort of thing at the same reading of the clock (or a hash collision). Refuted: node, receiver and content take no part, so two messages made at the same time get the same id and a receiver that checks for duplicates loses one."
  },
  {
   "property": "C90",
   "status": "partial",
   "theorems": [
    "C90_used_partial",
    "C90_running_refused",
    "C90_second_ignored_refuted",
    "C90_expired_ignored_refuted",
    "C90_full_attributes_refuted",
    "C90_shown"
   ],
   "note": "Proved for the first identity of a node that is unexpired and leaves room for the partner fingerprint: it is used, bound and shown; refused while running. Refuted: a second or an expired identity is ignored with np_ok; full attributes stop the process."
  },
  {
   "property": "C91",
   "status": "partial",
   "theorems": [
    "C91_accepted_partial",
    "C91_intent_of_identity",
    "C91_max_parallel_24_refuted"
   ],
   "note": "Proved for settings other than the number 24 and attributes that fit and do not use neuropil's own names; the token is taken to arrive unchanged (C76). Refuted: max_parallel 24."
  },
  {
   "property": "C92",
   "status": "partial",
   "theorems": [
    "C92_in_intents",
    "C92_of_channel_partial",
    "C92_no_room_in_intent_refuted",
    "C92_left_out_refuted",
    "C92_no_room_for_node_refuted",
    "C92_in_identity"
   ],
   "note": "Proved when everything fits. Refuted: attributes that do not fit are left out silently or stop the node."
  },
  {
   "property": "C93",
   "status": "proved",
   "theorems": [
    "C93_one_at_a_time",
    "C93_all_given_back"
   ],
   "note": "All threads, callbacks and schedules; the locks left out are listed in Lock_Model."
  },
  {
   "property": "C94",
   "status": "partial",
   "theorems": [
    "C94_levels_partial",
    "C94_senders_partial",
    "C94_prosumers_refuted",
    "C94_add_receive_refuted"
   ],
   "note": "Proved if callbacks touch only channels of lower level, in particular for senders without prosumer channels; refuted for two prosumer channels crosswise and for np_add_receive_cb crosswise."
  },
  {
   "property": "C95",
   "status": "partial",
   "theorems": [
    "C95_udp_partial",
    "C95_tcp_packet_refuted",
    "C95_tcp_hangup_refuted",
    "C95_one_thread"
   ],
   "note": "Proved for peers without network of their own (UDP) and for one thread; refuted for TCP peers (packet or hang-up after the handshake)."
  },
  {
   "property": "C96",
   "status": "partial",
   "theorems": [
    "C96_roundtrip_partial",
    "C96_zero_passphrase",
    "C96_authentic",
    "C96_large_file_refuted",
    "C96_replace_refuted",
    "C96_no_directory_refuted",
    "C96_cwd_refuted"
   ],
   "note": "Proved: round trip with the passphrase into any structure in any later process, nothing with another passphrase, zeros refused, only authentic files are accepted (for boxes with the laws of sound_box). Refuted: foreign files with more than 512 bytes, replacing saved keys, missing directory, working directory."
  },
  {
   "property": "C97",
   "status": "partial",
   "theorems": [
    "C97_roundtrip_partial",
    "C97_secret_refuted",
    "C97_cwd"
   ],
   "note": "Proved: everything but the secret key comes back into a zeroed structure; other passphrase and other name refused. Refuted for identities: the secret key is not saved. Missing: structures that are not zeroed."
  },
  {
   "property": "C98",
   "status": "partial",
   "theorems": [
    "C98_session_partial",
    "C98_only_stored",
    "C98_restart_refuted",
    "C98_load_refuted"
   ],
   "note": "Proved: an identity is known in the process that stored it. Refuted: nothing survives a restart, for every list; loading never returns np_ok."
  },
  {
   "property": "C99",
   "status": "partial",
   "theorems": [
    "C99_counter_partial",
    "C99_new",
    "C99_never_down",
    "C99_others",
    "C99_stops_refuted",
    "C99_no_clock_refuted"
   ],
   "note": "Proved for whole numbers up to 2^24 in every history; a counter never goes down for any amounts; calls for other metrics do not matter. Refuted: a counter stops for ever at 2^24; reading without a clock calls a null pointer."
  },
  {
   "property": "C100",
   "status": "partial",
   "theorems": [
    "C100_rate_partial",
    "C100_between",
    "C100_not_yet",
    "C100_stale_refuted",
    "C100_first_refuted"
   ],
   "note": "Proved: the rate is within one part in 2^24 of the quotient when measured after whole seconds (1 to 134217), exact for whole quotients; nothing changes within the interval. Refuted: the first rate is measured from 1970, a rate stays when traffic stops."
  },
  {
   "property": "C101",
   "status": "partial",
   "theorems": [
    "C101_export_refuted",
    "C101_node_refuted",
    "C101_empty",
    "C101_room_partial",
    "C101_room_refuted",
    "C101_lock_refuted",
    "C101_description_refuted",
    "C101_lines_refuted"
   ],
   "note": "Refuted for every context with metrics of usual size and for every node: export writes outside of the buffer; lock never given back; long or multi-line descriptions. Proved: empty context; the computed size would be enough for values up to 13 digits."
  },
  {
   "property": "C102",
   "status": "partial",
   "theorems": [
    "C102_label",
    "C102_others",
    "C102_rates",
    "C102_rate_refuted"
   ],
   "note": "Proved: the label is set exactly as given, other labels and metrics stay. Refuted: a rate can carry the label twice."
  },
  {
   "property": "C103",
   "status": "partial",
   "theorems": [
    "C103_read_partial",
    "C103_absent_partial",
    "C103_overflow_refuted",
    "C103_absent_refuted",
    "C103_two_reads_refuted",
    "C103_no_config_refuted",
    "C103_no_memory_refuted",
    "C103_number_refuted",
    "C103_token_partial"
   ],
   "note": "proved: binary attributes of messages with enough memory and of tokens; refuted: the sender's size is copied whatever the memory of the receiver, absent attributes with a used configuration, numbers used as addresses"
  },
  {
   "property": "C104",
   "status": "partial",
   "theorems": [
    "C104_token",
    "C104_token_refuted",
    "C104_channel_partial",
    "C104_one_side",
    "C104_no_channel",
    "C104_channel_refuted",
    "C104_no_channel_refuted"
   ],
   "note": "proved: tokens without inheritance, channels with room; refuted: answer is that of the last block only"
  },
  {
   "property": "C105",
   "status": "partial",
   "theorems": [
    "C105_decoded_partial",
    "C105_terminates",
    "C105_safe",
    "C105_junk_refuted",
    "C105_twice_refuted",
    "C105_nul_refuted"
   ],
   "note": "proved: termination always; result and memory safety if the unset byte is zero; refuted: any other value of it, encoded percent signs and zero bytes"
  },
  {
   "property": "C106",
   "status": "partial",
   "theorems": [
    "C106_args_partial",
    "C106_flag_refuted",
    "C106_equals_refuted"
   ],
   "note": "proved: arguments that all have a value without separators; refuted: arguments without value, = in values"
  },
  {
   "property": "C107",
   "status": "partial",
   "theorems": [
    "C107_dispatch_partial",
    "C107_long_refuted",
    "C107_not_found_partial",
    "C107_not_found_refuted",
    "C107_status_partial",
    "C107_status_refuted"
   ],
   "note": "proved: paths up to 124 characters, short tables, all status but two; refuted: longer paths, tables beyond 7935 bytes, 201/202 swapped"
  },
  {
   "property": "C108",
   "status": "partial",
   "theorems": [
    "C108_default",
    "C108_forward",
    "C108_smelled",
    "C108_nobody_else",
    "C108_no_connection",
    "C108_full_refuted",
    "C108_hops_refuted"
   ],
   "note": "Proved with room in the job queue and below 65535 hops, for all histories of pheromones (composed with C29). Refuted for a full job queue and for 65535 hops."
  },
  {
   "property": "C109",
   "status": "partial",
   "theorems": [
    "C109_neighbour",
    "C109_trail_partial",
    "C109_weak_refuted",
    "C109_not_in_tables_refuted",
    "C109_crash_refuted",
    "C109_hang_refuted"
   ],
   "note": "Direct neighbours and trails of at least 90/256 proved. Refuted for weaker trails and known nodes outside the tables; an acknowledgement addressed to a key that is no node crashes the node, a trail that only has senders makes the job loop for ever."
  },
  {
   "property": "C110",
   "status": "partial",
   "theorems": [
    "C110_trail_partial",
    "C110_weak_refuted",
    "C110_neither"
   ],
   "note": "Proved for trails of at least 52/256; refuted below."
  },
  {
   "property": "C111",
   "status": "partial",
   "theorems": [
    "C111_reaches",
    "C111_nobody_else",
    "C111_ends_partial",
    "C111_expired",
    "C111_cycle_refuted",
    "C111_storm_refuted"
   ],
   "note": "Everybody on the trails is reached and nobody else, for every network and every order of arrival; it ends where trails have no cycle, or when the message has expired. Refuted for cycles (circulates) and for nodes with three neighbours (packets multiply)."
  },
  {
   "property": "C112",
   "status": "partial",
   "theorems": [
    "C112_sealed",
    "C112_opened_partial",
    "C112_unopened_refuted",
    "C112_mute_refuted"
   ],
   "note": "Proved: nothing leaves unencrypted, for every history; nothing is given unopened if the settings were never virtual. Refuted for a channel that was virtual first and is made public later: messages are given as they came, and nothing it sends leaves."
  },
  {
   "property": "C113",
   "status": "partial",
   "theorems": [
    "C113_follows_partial",
    "C113_late_refuted",
    "C113_stays_refuted",
    "C113_again_refuted"
   ],
   "note": "Proved if settings come before the first callback and later settings keep the acknowledgement mode. Refuted: a callback added before the settings, a later change of the mode, and a message sent again."
  },
  {
   "property": "C114",
   "status": "proved",
   "theorems": [
    "C114_application",
    "C114_node"
   ],
   "note": "All subjects of applications are texts of 64 hexadecimal digits (subject_text)."
  },
  {
   "property": "C115",
   "status": "partial",
   "theorems": [
    "C115_given_partial",
    "C115_unread_refuted"
   ],
   "note": "Proved for messages that can be opened, on channels that were never virtual. Refuted for messages that cannot be opened: they are acknowledged."
  },
  {
   "property": "C116",
   "status": "partial",
   "theorems": [
    "C116_trail_back_partial",
    "C116_goes_on_partial",
    "C116_given",
    "C116_twice_refuted",
    "C116_full_refuted"
   ],
   "note": "Proved: the trail back, for buckets with room and entries that do not have exactly 32 sources when they decay; the own channel; the neighbours it goes on to for trails of strength 52 of 256 and more. Refuted: an announcement that comes again goes on again; a full bucket stops it."
  },
  {
   "property": "C117",
   "status": "partial",
   "theorems": [
    "C117_ends_partial",
    "C117_old",
    "C117_several",
    "C117_full_refuted"
   ],
   "note": "Proved with IEEE doubles: every update that is not expired is dealt with in at most 430e9 rounds per entry, and one older than 0.16 s has no effect. The time is up to the sender, though: _refuted gives an unexpired message that takes more than 425e9 rounds."
  },
  {
   "property": "C118",
   "status": "partial",
   "theorems": [
    "C118_learned_partial",
    "C118_towards",
    "C118_twice_refuted",
    "C118_back_refuted"
   ],
   "note": "What is learned, who is chosen (one copy towards the audience; all trails but back) is proved for every history. Refuted: the copy for a neighbour on a trail leaves twice, and may go back to where it came from."
  },
  {
   "property": "C119",
   "status": "partial",
   "theorems": [
    "C119_apart_partial",
    "C119_waits",
    "C119_once_partial",
    "C119_removed",
    "C119_single",
    "C119_limit_refuted"
   ],
   "note": "Proved for all interleavings of parts of other messages and cleanups with fewer than 512 neighbours, if one word of the key of the message differs modulo 8192 from those of the other keys; at most once until the filter forgets the key (16 shifts) or is resized. C119_removed: what tidying up removes. C119_limit_refuted: no limit on the number of waiting messages."
  },
  {
   "property": "C120",
   "status": "partial",
   "theorems": [
    "C120_decides",
    "C120_result",
    "C120_stays",
    "C120_no_refuted",
    "C120_replaced_refuted",
    "C120_too_early_refuted"
   ],
   "note": "C120_decides, C120_result and C120_stays say for every list of calls who decides and when the call succeeds. The full statement is false: C120_no_refuted (a no is overruled by the global callback), C120_replaced_refuted, C120_too_early_refuted."
  }
 ]
}