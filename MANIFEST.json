{
 "claims": [
  {
   "property": "C01",
   "status": "proved",
   "theorems": [
    "C01_serialize_unambiguous",
    "C01_id_determines_event"
   ],
   "note": "The serialization parses back to the six fields, so it is injective (for pubkeys without quote, backslash or control bytes, the only text written raw). With a collision-free hash the id determines the event."
  },
  {
   "property": "C02",
   "status": "partial",
   "theorems": [
    "C02_serialize_is_nip01_json",
    "C02_numbers_read_back",
    "C02_escapes_of_nip01",
    "C02_unescaped_pubkey_refuted"
   ],
   "note": "The serialization parses, under an independent JSON grammar, to the NIP-01 array. Refuted for pubkeys holding raw quote bytes, which are not escaped."
  },
  {
   "property": "C03",
   "status": "proved",
   "theorems": [
    "C03_check_id_exact",
    "C03_id_shape"
   ],
   "note": "CheckID holds exactly when the id is the lower-case hex of the hash of the serialization."
  },
  {
   "property": "C04",
   "status": "proved",
   "theorems": [
    "C04_signed_event_verifies",
    "C04_check_signature_sound"
   ],
   "note": "For any signature scheme satisfying the usual law, a signed event passes CheckID and CheckSignature."
  },
  {
   "property": "C05",
   "status": "proved",
   "theorems": [
    "C05_kind_classes",
    "C05_kind_classes_disjoint"
   ],
   "note": "Proved as stated over all integers."
  },
  {
   "property": "C06",
   "status": "proved",
   "theorems": [
    "C06_compare_event_order",
    "C06_reverse_and_pointers",
    "C06_sorting_is_unique"
   ],
   "note": "Proved: total order laws, reverse and pointer variants, sorting has one result."
  },
  {
   "property": "C07",
   "status": "proved",
   "theorems": [
    "C07_matches_iff_nip01",
    "C07_matches_ignoring_time",
    "C07_empty_list_matches_nothing"
   ],
   "note": "Matches is equivalent to the NIP-01 condition, with and without the time bounds."
  },
  {
   "property": "C08",
   "status": "proved",
   "theorems": [
    "C08_filters_disjunction",
    "C08_filters_as_sets",
    "C08_order_and_duplicates_irrelevant",
    "C08_empty_list"
   ],
   "note": "Proved as stated."
  },
  {
   "property": "C09",
   "status": "proved",
   "theorems": [
    "C09_wider_matches_more",
    "C09_adding_values_keeps_matches",
    "C09_adding_conditions_loses_only"
   ],
   "note": "Proved as stated."
  },
  {
   "property": "C10",
   "status": "partial",
   "theorems": [
    "C10_equal_but_match_differently_refuted",
    "C10_nil_vs_empty_refuted",
    "C10_not_symmetric_refuted",
    "C10_limit_ignored_refuted",
    "C10_filter_equal_partial",
    "C10_filter_equal_reflexive"
   ],
   "note": "Refuted: Limit is ignored, nil and empty are identified, and the comparison of lists is one-sided on duplicates. Partial: equality for duplicate-free filters implies the same matches."
  },
  {
   "property": "C11",
   "status": "proved",
   "theorems": [
    "C11_clone_equal",
    "C11_clone_independent",
    "C11_clone_snapshot"
   ],
   "note": "Heap model: the clone has equal contents and shares no cell; holds after any sequence of writes through either."
  },
  {
   "property": "C12",
   "status": "partial",
   "theorems": [
    "C12_theoretical_limit_refuted",
    "C12_theoretical_limit_partial"
   ],
   "note": "Refuted: an event with two d tags is counted once but matches two d values, and so on (see the witness); partial bound proved for filters by id or by replaceable kinds."
  },
  {
   "property": "C13",
   "status": "proved",
   "theorems": [
    "C13_find_first",
    "C13_find_with_value_first",
    "C13_find_last",
    "C13_find_last_with_value",
    "C13_find_all_in_order",
    "C13_get_d_first_value"
   ],
   "note": "Proved as stated."
  },
  {
   "property": "C14",
   "status": "partial",
   "theorems": [
    "C14_get_first_last",
    "C14_filter_out",
    "C14_empty_prefix_panics_refuted"
   ],
   "note": "Proved for non-empty prefixes; refuted for the empty prefix, which panics."
  },
  {
   "property": "C15",
   "status": "partial",
   "theorems": [
    "C15_append_unique_refuted",
    "C15_append_empty_panics_refuted",
    "C15_append_unique_partial",
    "C15_append_unique_same_length_partial"
   ],
   "note": "Refuted: prefix comparison drops tags that only extend an existing one, and an empty tag panics. Partial under same-length hypotheses."
  },
  {
   "property": "C16",
   "status": "partial",
   "theorems": [
    "C16_tag_clone_refuted",
    "C16_tags_clone_always_empty",
    "C16_tags_clone_refuted"
   ],
   "note": "Refuted: Clone returns empty tags (make with length 0 then copy)."
  },
  {
   "property": "C17",
   "status": "proved",
   "theorems": [
    "C17_event_round_trip",
    "C17_event_json_is_nip01",
    "C17_encoding_injective",
    "C17_strings_read_as_json",
    "C17_invalid_utf8_refuted",
    "C17_unknown_field_refuted",
    "C17_mended",
    "C17_any_text",
    "C17_round_trip_exactly",
    "C17_second_trip",
    "C17_reads",
    "C17_refuses",
    "C17_not_an_object",
    "C17_whole_numbers"
   ],
   "note": "Round trip for all events with UTF-8 text and int64 numbers; the encoding also parses under the independent JSON grammar to the NIP-01 object. Refuted outside: stray bytes become U+FFFD, unknown fields are an error, a text that is not JSON is accepted."
  },
  {
   "property": "C18",
   "status": "partial",
   "theorems": [
    "C18_filter_round_trip_partial",
    "C18_round_trip_exactly",
    "C18_what_is_kept",
    "C18_same_matches_partial",
    "C18_empty_list_refuted",
    "C18_limit_zero_refuted",
    "C18_raw_tag_name_refuted",
    "C18_reads",
    "C18_refuses",
    "C18_tag_map",
    "C18_not_an_object",
    "C18_skips_numbers",
    "C18_whole_numbers"
   ],
   "note": "Identity on filters in normal form with plain tag names. Refuted outside: empty lists are dropped (so the filter matches everything), LimitZero with a limit is lost, tag names are not escaped. C18_round_trip_exactly: among filters that can be written, exactly those in normal form come back."
  },
  {
   "property": "C19",
   "status": "partial",
   "theorems": [
    "C19_message_round_trip",
    "C19_text_messages",
    "C19_ok_flag",
    "C19_arity",
    "C19_encoding_injective",
    "C19_quote_in_id_refuted",
    "C19_empty_req_refuted",
    "C19_long_hll_refuted",
    "C19_short_hll_refuted",
    "C19_lone_surrogate",
    "C19_not_an_array"
   ],
   "note": "Round trip for every message type under explicit conditions. Refuted outside: quote in the subscription id, REQ without filters, sketches not of 256 bytes."
  },
  {
   "property": "C20",
   "status": "partial",
   "theorems": [
    "C20_scanners_agree_partial",
    "C20_d_tag_partial",
    "C20_negative_time_refuted",
    "C20_sub_named_pubkey_refuted",
    "C20_d_tag_refuted",
    "C20_field_order_refuted",
    "C20_crash_refuted"
   ],
   "note": "Scanners agree with the parser on every encoded EVENT message with hex ids, time not negative and a subscription id other than the two field names. Refuted outside: negative time, sub id named pubkey, escaped d value, d tag without value, other field orders, crashes on short messages."
  },
  {
   "property": "C21",
   "status": "partial",
   "theorems": [
    "C21_round_trip",
    "C21_substitution_detected_partial",
    "C21_substitute_one_refuted"
   ],
   "note": "Round trip for all printable prefixes and data of any length. Every single substitution in the data part of any length is rejected, except by the character 1, which moves the separator (refuted with a witness)."
  },
  {
   "property": "C22",
   "status": "proved",
   "theorems": [
    "C22_invertible",
    "C22_same_bits"
   ],
   "note": "Round trip and bit-for-bit specification, all byte strings."
  },
  {
   "property": "C23",
   "status": "proved",
   "theorems": [
    "C23_round_trip",
    "C23_same_text"
   ],
   "note": "Proved for every 32-byte value and the three prefixes."
  },
  {
   "property": "C24",
   "status": "partial",
   "theorems": [
    "C24_nprofile",
    "C24_nevent",
    "C24_naddr",
    "C24_long_relay_refuted",
    "C24_empty_identifier_refuted",
    "C24_kind_wraps_refuted",
    "C24_wrong_length_refuted"
   ],
   "note": "Round trip for any number of relays up to 255 bytes each, kind in 1..2^32-1, identifier of 1..255 bytes. Refuted outside: longer relays, empty identifier, kind 0, wrapped kinds, keys of the wrong length."
  },
  {
   "property": "C25",
   "status": "partial",
   "theorems": [
    "C25_no_crash_partial",
    "C25_naddr_crash_refuted",
    "C25_panics_exactly",
    "C25_success_well_formed",
    "C25_to_pointer"
   ],
   "note": "Success implies a well-formed value for every string. No crash for every string whose prefix is not naddr; refuted for naddr (kind entry shorter than four bytes). C25_panics_exactly: exactly which texts crash Decode."
  },
  {
   "property": "C26",
   "status": "partial",
   "theorems": [
    "C26_round_trip_partial",
    "C26_round_trip_exactly",
    "C26_event_keeps_the_rest",
    "C26_kind_lost_refuted",
    "C26_bad_pointer_refuted"
   ],
   "note": "Identity on encodable pointers. Refuted: the kind of an event pointer is lost, empty relay lists become nil, undecodable fields give an empty code. C26_round_trip_exactly: exactly which pointers come back."
  },
  {
   "property": "C27",
   "status": "partial",
   "theorems": [
    "C27_profile_tag",
    "C27_event_tag_partial",
    "C27_reference_splits",
    "C27_entity_tag",
    "C27_event_tag_refuted",
    "C27_short_tag_refuted",
    "C27_odd_key_refuted",
    "C27_event_match",
    "C27_entity_match_partial",
    "C27_entity_match_exactly",
    "C27_entity_match_sound",
    "C27_match_refuted"
   ],
   "note": "Tags round trip up to relays beyond the first, references split for any identifier. Refuted: author lost without relays, short tags crash, profile pointers never match, entity pointers and filters disagree without exactly one d tag. C27_entity_match_exactly: exactly when an entity pointer and its filter disagree."
  },
  {
   "property": "C28",
   "status": "proved",
   "theorems": [
    "C28_padding_rule",
    "C28_padding_bounds",
    "C28_round_trip",
    "C28_round_trip_with_option",
    "C28_size_from_length_only",
    "C28_other_lengths_refused"
   ],
   "note": "Round trip for 1..65535 bytes, any primitives with the stated laws; padded size is the NIP-44 rule, bounds and monotony; payload size depends on the length only; other lengths refused."
  },
  {
   "property": "C29",
   "status": "partial",
   "theorems": [
    "C29_accepted_is_authentic",
    "C29_encrypts_to_itself_partial",
    "C29_padding_bytes_unchecked_refuted",
    "C29_text_not_canonical_refuted",
    "C29_other_versions_refused",
    "C29_wrong_tag_refused"
   ],
   "note": "Accepted payloads are authentic and well framed, for all payloads and keys. The last clause (encrypting again gives the same payload) is refuted: padding bytes are not checked and base64 with line breaks is accepted; proved when padding is zero and the text canonical."
  },
  {
   "property": "C30",
   "status": "proved",
   "theorems": [
    "C30_round_trip",
    "C30_format"
   ],
   "note": "Proved for every message, key size and iv of 16 bytes."
  },
  {
   "property": "C31",
   "status": "partial",
   "theorems": [
    "C31_nip44_panics_only_on_empty_partial",
    "C31_nip44_no_crash_refuted",
    "C31_nip04_panics_only_on_bad_sizes_partial",
    "C31_nip04_no_crash_refuted",
    "C31_nip44_panics_exactly",
    "C31_nip04_panics_exactly"
   ],
   "note": "Refuted for both; the partial theorems say exactly which inputs crash. C31_nip44_panics_exactly and C31_nip04_panics_exactly: exactly which texts crash."
  },
  {
   "property": "C32",
   "status": "proved",
   "theorems": [
    "C32_round_trip",
    "C32_bad_cost_refused",
    "C32_cost",
    "C32_cost_too_big",
    "C32_short_code_panics_refuted",
    "C32_other_key_sizes_lost_refuted"
   ],
   "note": "Proved for 32-byte keys, every cost and security byte. Extra refutations: short codes crash Decrypt, other key sizes are cut."
  },
  {
   "property": "C33",
   "status": "partial",
   "theorems": [
    "C33_difficulty_counts",
    "C33_check_exact",
    "C33_no_crash_partial",
    "C33_panics_exactly",
    "C33_other_inputs_refuted",
    "C33_not_hex_reported",
    "C33_work_meets_target",
    "C33_work_commits_partial",
    "C33_uncommitted",
    "C33_empty_target",
    "C33_old_nonce_tag_refuted",
    "C33_workers_can_stop",
    "C33_nonces_disjoint",
    "C33_nonces_cover",
    "C33_work_can_finish"
   ],
   "note": "Difficulty is the number of leading zero bits for all 64-digit ids, Check is exact, DoWork as a state machine over any schedule meets its target. Refuted: short ids crash, longer ids are accepted, non-hex can go unnoticed; an existing nonce tag makes the committed difficulty 0. C33_panics_exactly: exactly which ids crash."
  },
  {
   "property": "C34",
   "status": "proved",
   "theorems": [
    "C34_crash_exactly",
    "C34_build_is_sketch",
    "C34_order_and_grouping_free",
    "C34_merge_laws",
    "C34_hex_and_bytes_agree",
    "C34_long_registers_panic_refuted"
   ],
   "note": "Any build tree gives the sketch of its key set, merge laws, hex and bytes agree. Extra refutation: more than 256 foreign registers crash the merge."
  },
  {
   "property": "C35",
   "status": "partial",
   "theorems": [
    "C35_offsets_agree",
    "C35_offset_value",
    "C35_served_filters",
    "C35_offsets_usable",
    "C35_followers_all_counted",
    "C35_others_counted_partial",
    "C35_matched_not_counted_refuted"
   ],
   "note": "Offsets agree and are in 8..23 for all filters and events, served filters characterised. Refuted: a reaction matched by its first e tag is not counted for it."
  },
  {
   "property": "C36",
   "status": "partial",
   "theorems": [
    "C36_varint_round_trip_partial",
    "C36_varint_prefix_free",
    "C36_varint_round_trip_refuted",
    "C36_varint_overflow",
    "C36_varint_any_text",
    "C36_varint_refused",
    "C36_bounds_round_trip_partial",
    "C36_bounds_round_trip_refuted"
   ],
   "note": "Round trip for numbers below 2^56 and for bound sequences with timestamps from 0 to 2^56-2 or infinite. Refuted outside: larger or negative numbers overflow the 8 byte buffer; timestamp -1 is read as infinite."
  },
  {
   "property": "C37",
   "status": "partial",
   "theorems": [
    "C37_minimal_bound_partial",
    "C37_different_times",
    "C37_minimal_bound_refuted"
   ],
   "note": "Proved when ids with equal timestamps differ in their first 17 bytes; refuted otherwise (only 16 bytes are compared)."
  },
  {
   "property": "C38",
   "status": "partial",
   "theorems": [
    "C38_sum_partial",
    "C38_order_partial",
    "C38_order_refuted"
   ],
   "note": "Proved for ids without an all-ones 32 bit word; refuted otherwise: a carry into an all-ones word is lost, so the sum is wrong and depends on order."
  },
  {
   "property": "C39",
   "status": "partial",
   "theorems": [
    "C39_split_covers_partial",
    "C39_old_events_refuted",
    "C39_alike_ids_refuted",
    "C39_sizes"
   ],
   "note": "Sixteen consecutive chunks, sizes within one, fingerprints and separating bounds read back from the emitted text. Partial only through the conditions on ids and timestamps of C36 and C37: C39_old_events_refuted (32 events from before 1970 crash Start), C39_alike_ids_refuted (ids alike in 32 digits get a bound that separates nothing)."
  },
  {
   "property": "C40",
   "status": "partial",
   "theorems": [
    "C40_reconciliation_partial",
    "C40_exactly_once_refuted",
    "C40_hostile_message_refuted",
    "C40_first_byte"
   ],
   "note": "Any two stores, any number of rounds, without a frame limit: the session ends and reports exactly the difference, each id once, given that fingerprints distinguish the ranges of the two stores. Refuted with a frame limit (ids reported twice) and for hostile messages (crash)."
  },
  {
   "property": "C41",
   "status": "proved",
   "theorems": [
    "C41_seal",
    "C41_find_lower_bound",
    "C41_range",
    "C41_insert"
   ],
   "note": "Proved as stated, for all item lists and bounds."
  },
  {
   "property": "C42",
   "status": "partial",
   "theorems": [
    "C42_no_comma",
    "C42_round_trip_partial",
    "C42_error_lost",
    "C42_round_trip_refuted",
    "C42_error_read",
    "C42_parser_crash_refuted"
   ],
   "note": "Round trip of OPEN, MSG, CLOSE with fields free of quotes and backslashes. Refuted: errors are written under a label the parser does not know; an early comma crashes the parser; a quote ends a field."
  },
  {
   "property": "C43",
   "status": "proved",
   "theorems": [
    "C43_signal_at_most_once",
    "C43_signal_after_stored",
    "C43_drop_reason",
    "C43_signal_comes"
   ],
   "note": "Any schedule of reader, dispatch goroutines, EOSE, start, Fire, Unsub and Close: the signal is given at most once, after everything received before the EOSE was delivered or dropped, drops only happen to ended or unstarted subscriptions, and the signal comes."
  },
  {
   "property": "C44",
   "status": "partial",
   "theorems": [
    "C44_delivered_once",
    "C44_numbers_distinct",
    "C44_all_delivered",
    "C44_terminates",
    "C44_no_deadlock",
    "C44_order_refuted"
   ],
   "note": "Each event at most once, all events delivered when nothing is left to do, termination and no deadlock. Order of arrival is not kept (refuted)."
  },
  {
   "property": "C45",
   "status": "partial",
   "theorems": [
    "C45_close_once",
    "C45_channel_closed_once",
    "C45_channel_closes",
    "C45_last_event",
    "C45_unsub_removes",
    "C45_no_crash_partial",
    "C45_dead_after_close_partial",
    "C45_no_crash_refuted",
    "C45_close_sent_refuted"
   ],
   "note": "CLOSE at most once, channel closed at most once, no send after close and no crash when Fire does not follow the end of the context; refuted otherwise."
  },
  {
   "property": "C46",
   "status": "partial",
   "theorems": [
    "C46_only_valid_matching",
    "C46_matches_partial",
    "C46_unknown_dropped",
    "C46_delivered",
    "C46_time_bounds_refuted",
    "C46_crash_refuted",
    "C46_forged_id_refuted",
    "C46_shadowed_refuted"
   ],
   "note": "All message sequences and subscription changes. Refuted: after the EOSE since and until are ignored; one message crashes the reader; CheckSignature does not look at the id; the duplicate check remembers ids of events that are then refused."
  },
  {
   "property": "C47",
   "status": "partial",
   "theorems": [
    "C47_success_means_accepted_partial",
    "C47_rejection",
    "C47_expired",
    "C47_answer_for_own_event",
    "C47_returns_once",
    "C47_lost_refuted",
    "C47_race_refuted",
    "C47_same_event_refuted"
   ],
   "note": "All schedules. Success means accepted unless the connection was lost or the context ended first; refuted in those cases; two publishes of one event share a slot."
  },
  {
   "property": "C48",
   "status": "proved",
   "theorems": [
    "C48_routed_back",
    "C48_ids_distinct",
    "C48_id_injective",
    "C48_serial_clamped",
    "C48_serial_other"
   ],
   "note": "Proved for every label and every number of subscriptions below 2^63."
  },
  {
   "property": "C49",
   "status": "partial",
   "theorems": [
    "C49_closed_once",
    "C49_stays_open",
    "C49_one_caller_wins",
    "C49_later_calls_fail",
    "C49_terminates",
    "C49_released_partial",
    "C49_never_closed_refuted",
    "C49_crash_refuted",
    "C49_leak_refuted"
   ],
   "note": "All schedules of any number of closers, the writer and subscribers. Closed at most once, later calls fail, everything ends except subscriptions given up by Subscribe. Refuted: connection left open, crash on nil connection, leaked subscription."
  },
  {
   "property": "C50",
   "status": "partial",
   "theorems": [
    "C50_at_most_once",
    "C50_only_sent",
    "C50_closed_last",
    "C50_all_delivered_partial",
    "C50_moves_end",
    "C50_closes",
    "C50_late_copy_refuted",
    "C50_bad_copy_refuted"
   ],
   "note": "Any number of relays, any schedule: each id at most once, only what was sent, closed once and last, and it closes. That every id is delivered is refuted (a live copy after the EOSE or a bad copy hides the stored one) and proved without those and without early ends."
  },
  {
   "property": "C51",
   "status": "partial",
   "theorems": [
    "C51_closed_partial",
    "C51_not_closed_early",
    "C51_closed_once_partial",
    "C51_closed_twice_refuted",
    "C51_repeated_url_never_closes",
    "C51_repeated_url_refuted",
    "C51_no_url_never_closes",
    "C51_eose_signal",
    "C51_eose_signal_comes"
   ],
   "note": "Closed at least once for distinct URLs and never early; exactly once when goroutines leave one at a time. Refuted: two leaving together close twice and panic; repeated or no URLs never close."
  },
  {
   "property": "C52",
   "status": "partial",
   "theorems": [
    "C52_newest_refuted",
    "C52_never_the_first_newest",
    "C52_newest_dropped",
    "C52_only_sent_partial"
   ],
   "note": "Refuted: the newest version is dropped, an older one may be kept; the general theorem says when. Only sent versions are returned."
  },
  {
   "property": "C53",
   "status": "proved",
   "theorems": [
    "C53_one_result_each",
    "C53_positions",
    "C53_never_blocks",
    "C53_closed_last",
    "C53_ends",
    "C53_no_error_iff"
   ],
   "note": "All URL lists, call results and schedules: one result per position, never blocks, closed once after the last, ends; error nil exactly when the last publish succeeded."
  },
  {
   "property": "C54",
   "status": "partial",
   "theorems": [
    "C54_always_dials",
    "C54_backoff_refuted",
    "C54_penalty_partial",
    "C54_success_resets_refuted",
    "C54_penalty_length_refuted"
   ],
   "note": "Refuted: the penalty is noted (30+2^n) but never consulted, not reset by success and not of the noted length."
  },
  {
   "property": "C55",
   "status": "partial",
   "theorems": [
    "C55_every_event_once_partial",
    "C55_limit_partial",
    "C55_distinct_timestamps_partial",
    "C55_limit",
    "C55_once_refuted",
    "C55_every_event_refuted",
    "C55_two_relays_refuted",
    "C55_shared_cache_refuted",
    "C55_limit_zero_refuted"
   ],
   "note": "One relay that answers newest first: proved for every store, page size, limit and capacity growth, if groups of equal timestamps are smaller than a page and the oldest event is alone at its timestamp. Refuted otherwise: events repeated or lost, with two relays events lost, the shared cache array, limit zero. The limit holds for any answers."
  },
  {
   "property": "C56",
   "status": "partial",
   "theorems": [
    "C56_comparison_is_order",
    "C56_query_sync",
    "C56_query_errors",
    "C56_publish",
    "C56_query_events",
    "C56_query_events_error",
    "C56_query_events_closed_refuted",
    "C56_never_closed"
   ],
   "note": "All store lists. Sort is a parameter with the promise of slices.SortFunc, shown to exist. Refuted: the channel of QueryEvents is never closed."
  },
  {
   "property": "C57",
   "status": "partial",
   "theorems": [
    "C57_answer_is_for_own_key",
    "C57_at_most_one_answer",
    "C57_everyone_answered",
    "C57_terminates",
    "C57_batch_size",
    "C57_full_goes_at_once",
    "C57_unique_keys_refuted"
   ],
   "note": "Proved for all schedules: own key, at most once, everyone answered, batches within the size, termination. Refuted: keys given to the batch function are not unique, contrary to its comment."
  },
  {
   "property": "C58",
   "status": "partial",
   "theorems": [
    "C58_memory_is_a_map_partial",
    "C58_declined_update",
    "C58_buffers_refuted",
    "C58_got_buffers_refuted",
    "C58_use_after_close_refuted",
    "C58_disk_is_a_map",
    "C58_delete_present",
    "C58_delete_missing"
   ],
   "note": "All operation sequences that do not write to a buffer the store holds and do not use the store after Close; on disk without those limits. Refuted: Set and Get share buffers with the caller; use after Close panics."
  },
  {
   "property": "C59",
   "status": "partial",
   "theorems": [
    "C59_memory_newest",
    "C59_memory_top",
    "C59_memory_top_negative_refuted",
    "C59_memory_top_zero_refuted",
    "C59_disk_newest_partial",
    "C59_disk_top_partial",
    "C59_disk_2106_refuted",
    "C59_badger_prefix_refuted",
    "C59_disk_long_author_refuted",
    "C59_sql_keeps_last_save",
    "C59_sql_newest_partial",
    "C59_sql_newest_refuted"
   ],
   "note": "Memory, LMDB and Badger: the maximum, and the best first, for all save sequences (on disk: 32-byte authors, before 2106). SQL keeps the last save, not the newest (refuted). Refuted: n = 0 in memory, wrap in 2106, Badger with a cut author, panic on long authors."
  },
  {
   "property": "C60",
   "status": "partial",
   "theorems": [
    "C60_round_trip_partial",
    "C60_round_trip_short_partial",
    "C60_round_trip_exactly",
    "C60_round_trip_refuted",
    "C60_event_relays_partial",
    "C60_stored_under",
    "C60_bad_id",
    "C60_shared_prefix_refuted",
    "C60_lost_relays_refuted"
   ],
   "note": "Round trip for relays of any length but 256; tracked relays of an event for any sequence of sightings, for ids that differ in their first 8 bytes. Refuted for the rest. C60_round_trip_exactly: exactly which relay lists come back."
  },
  {
   "property": "C61",
   "status": "partial",
   "theorems": [
    "C61_replaceable_newest",
    "C61_addressable_newest",
    "C61_order_refuted",
    "C61_one_filter_per_relay"
   ],
   "note": "Newest of the loaded events for replaceable and addressable loads, one filter per relay. Refuted: the answer depends on order when times are equal."
  },
  {
   "property": "C62",
   "status": "partial",
   "theorems": [
    "C62_own_id",
    "C62_own_key_partial",
    "C62_one_result",
    "C62_one_computation_per_slot",
    "C62_ends",
    "C62_everyone_answered_partial",
    "C62_lost_caller_refuted",
    "C62_other_key_refuted",
    "C62_short_key_exact",
    "C62_shid",
    "C62_shid_same",
    "C62_short_key_refuted"
   ],
   "note": "All schedules: own short id, own key if short ids differ, one computation per slot, termination, everyone answered but late joiners. Refuted: a late joiner waits for ever, keys sharing 8 bytes share results, short keys panic."
  },
  {
   "property": "C63",
   "status": "partial",
   "theorems": [
    "C63_items",
    "C63_items_once",
    "C63_every_value",
    "C63_follows",
    "C63_topics",
    "C63_relay_urls",
    "C63_relay_list_partial",
    "C63_two_markers_refuted",
    "C63_bookmarks_always_empty",
    "C63_bookmarks_refuted",
    "C63_sets"
   ],
   "note": "Items are the parsed tags, first of each value; per list kind exactly what is accepted. Refuted: two markers, bookmarks always empty."
  },
  {
   "property": "C64",
   "status": "partial",
   "theorems": [
    "C64_what_it_does",
    "C64_union_partial",
    "C64_union_refuted"
   ],
   "note": "What it does exactly; union for the case that holds; refuted in general."
  },
  {
   "property": "C65",
   "status": "partial",
   "theorems": [
    "C65_round_trip",
    "C65_size",
    "C65_outside",
    "C65_inside",
    "C65_author",
    "C65_bad_seal_rejected",
    "C65_seal_kind_refuted",
    "C65_wrap_unchecked_refuted",
    "C65_rumor_unchecked_refuted",
    "C65_times",
    "C65_six_hours_refuted"
   ],
   "note": "Round trip, size limit, author and seal signature for all rumors and lawful ciphers. Refuted: seal kind, wrap signature and rumor author are unchecked; times reach ten hours back."
  },
  {
   "property": "C66",
   "status": "partial",
   "theorems": [
    "C66_static_authorised",
    "C66_static_refusal",
    "C66_static_reply",
    "C66_static_id_partial",
    "C66_static_results",
    "C66_static_answers",
    "C66_static_no_request",
    "C66_dynamic_authorised",
    "C66_dynamic_reply",
    "C66_dynamic_plain",
    "C66_dynamic_one_handler_partial",
    "C66_empty_answer_refuted",
    "C66_crash_refuted",
    "C66_odd_key_refuted",
    "C66_dynamic_second_handler_refuted",
    "C66_dynamic_secret_refuted",
    "C66_dynamic_relays_refuted",
    "C66_client_checks",
    "C66_client_signs",
    "C66_client_other_event_refuted"
   ],
   "note": "All histories. Static signer: authorised, readable, own id, meaning of each result. Dynamic signer: authorised, signed by the addressed handler, acts for its user; readable and right public key only for clients of one handler. Refuted: empty answers lose the id, line feeds crash the signer, second handler, secret never passed on, relays callback inverted, client accepts another event."
  },
  {
   "property": "C67",
   "status": "partial",
   "theorems": [
    "C67_ordered_map",
    "C67_unlocked_refuted"
   ],
   "note": "Sorted, unique and first session kept after any insertions. Refuted: lookups without the lock may read another client's session."
  },
  {
   "property": "C68",
   "status": "partial",
   "theorems": [
    "C68_cache",
    "C68_cache_size",
    "C68_plain",
    "C68_plain_signs",
    "C68_locked_encrypts",
    "C68_locked_never_decrypts",
    "C68_locked_signs",
    "C68_locked_wrong_password",
    "C68_locked_crash",
    "C68_locked_key_partial",
    "C68_locked_refuted",
    "C68_locked_key_refuted",
    "C68_bunker_encrypts",
    "C68_bunker_never_decrypts_refuted"
   ],
   "note": "Plain keyer with its cache in full. Refuted: the encrypted keyer never decrypts, the bunker keyer's Decrypt encrypts."
  },
  {
   "property": "C69",
   "status": "partial",
   "theorems": [
    "C69_selection",
    "C69_selection_refused",
    "C69_selection_panic",
    "C69_send_partial",
    "C69_send_succeeds",
    "C69_receive",
    "C69_change_locked_refuted",
    "C69_destination_refuted",
    "C69_lightning_swap_refuted",
    "C69_spent_tokens_stay_refuted",
    "C69_change_del_refuted",
    "C69_destination_inverted_refuted",
    "C69_receive_panic_refuted",
    "C69_pay_loses_change_refuted",
    "C69_pay_fee_twice_refuted",
    "C69_pay_partial",
    "C69_pay_panic_refuted",
    "C69_signatures",
    "C69_signatures_crash_refuted",
    "C69_other_mints",
    "C69_other_mint_silent",
    "C69_collisions",
    "C69_collision_refused",
    "C69_no_locks",
    "C69_lightning_quote",
    "C69_target_keeps_it_refuted",
    "C69_receive_unsaved",
    "C69_external",
    "C69_hash_lock_refused",
    "C69_pay_tries",
    "C69_no_lightning",
    "C69_external_refused"
   ],
   "note": "Selection: exact amount with fees, from one mint, refused only if no mint has enough, for all wallets. Send: what is sent has the asked value, nothing is lost but the fees, used tokens gone when there is change. Receive keeps the value. Refuted: without change the spent tokens stay; change is locked to the recipient; deletions are not recorded; the destination test is inverted; a lightning swap redeems more than was paid for; pay loses change, counts the fee twice, may crash; more signatures than outputs crash; a target mint that keeps the money leaves the swapped proofs in no token."
  },
  {
   "property": "C70",
   "status": "partial",
   "theorems": [
    "C70_partial",
    "C70_none",
    "C70_other_network",
    "C70_unknown_unit_refuted",
    "C70_wrap_refuted",
    "C70_pico_refuted",
    "C70_unknown_unit_any_refuted"
   ],
   "note": "Exact for known units and amounts that fit, and no amount gives zero. Refuted: unknown multiplier, wrap, pico amounts."
  },
  {
   "property": "C71",
   "status": "partial",
   "theorems": [
    "C71_remove",
    "C71_remove_content",
    "C71_load",
    "C71_order",
    "C71_race_refuted",
    "C71_race_forever",
    "C71_late_token_refuted"
   ],
   "note": "Removal by id, the state after the end of stored events for all orders without the race. Refuted: an event between the flag and the snapshot is forgotten for ever; a token arriving after its deletion stays."
  },
  {
   "property": "C72",
   "status": "partial",
   "theorems": [
    "C72_merge_metadata",
    "C72_metadata",
    "C72_no_name_refuted",
    "C72_reopened_refuted",
    "C72_prefix_refuted",
    "C72_merge_admins",
    "C72_merge_members",
    "C72_members",
    "C72_roles",
    "C72_roles_lost_refuted",
    "C72_roles_time_refuted",
    "C72_twice_refuted",
    "C72_removed_refuted",
    "C72_older_refused",
    "C72_newest_name",
    "C72_order_refuted",
    "C72_address",
    "C72_address_host_refuted",
    "C72_address_panic_refuted",
    "C72_new_group",
    "C72_from_event",
    "C72_events_say"
   ],
   "note": "Exactly what each merge does; metadata, members and roles round trip for all map orders; older events refused after any history; the newest name wins in any order. Refuted: private, closed and about never go back, removed members stay, admins doubled, role texts lost, addresses crash."
  },
  {
   "property": "C73",
   "status": "partial",
   "theorems": [
    "C73_lossless",
    "C73_truthful",
    "C73_no_crash_partial",
    "C73_crash_refuted",
    "C73_bad_code_refuted",
    "C73_found",
    "C73_note_ignored_refuted",
    "C73_url_found"
   ],
   "note": "Texts concatenate to the content with right offsets and truthful pointers for all contents; the first reference is found. No crash only if no address begins inside a word. Refuted: a code ending in ws followed by :// crashes; so does a malformed naddr."
  },
  {
   "property": "C74",
   "status": "partial",
   "theorems": [
    "C74_repository",
    "C74_state",
    "C74_patch",
    "C74_patch_colon_refuted",
    "C74_patch_kind_refuted"
   ],
   "note": "Repositories without conditions, states for all map orders, patches without a colon in the repository id. Refuted for patches: colon in the id, kind unchecked."
  },
  {
   "property": "C75",
   "status": "partial",
   "theorems": [
    "C75_file_partial",
    "C75_file_refuted",
    "C75_file_image_refuted",
    "C75_no_type_refuted",
    "C75_live_partial",
    "C75_live_reads",
    "C75_live_counts",
    "C75_live_clamped",
    "C75_live_times_refuted",
    "C75_live_refuted",
    "C75_host",
    "C75_calendar_partial",
    "C75_calendar_refuted"
   ],
   "note": "The fields that survive, for all values of each type. Refuted: file image and thumb, live times and fields, calendar zones and fields are lost."
  },
  {
   "property": "C76",
   "status": "partial",
   "theorems": [
    "C76_message",
    "C76_message_prefixed",
    "C76_message_idempotent",
    "C76_space_refuted",
    "C76_empty_prefix_refuted",
    "C76_url_partial",
    "C76_url_bad",
    "C76_url_scheme",
    "C76_url_written",
    "C76_url_protocol_refuted"
   ],
   "note": "Messages for all strings and prefixes without spaces; URLs given that the third-party parser reads back what is written. Refuted: prefix with a space, empty prefix, long protocol."
  },
  {
   "property": "C77",
   "status": "proved",
   "theorems": [
    "C77_sound",
    "C77_complete",
    "C77_no_panic",
    "C77_answers",
    "C77_created",
    "C77_other_relay_refuted",
    "C77_id_refuted",
    "C77_empty_challenge_refuted",
    "C77_first_relay_refuted"
   ],
   "note": "Sound and complete for all events and clocks; made and signed events accepted for 599 seconds. Refuted: relay compared too loosely, id unchecked."
  },
  {
   "property": "C78",
   "status": "proved",
   "theorems": [
    "C78_moderation",
    "C78_metadata",
    "C78_unsorted_refuted"
   ],
   "note": "Membership on every ascending list, and on the two lists."
  },
  {
   "property": "C79",
   "status": "partial",
   "theorems": [
    "C79_cache_is_a_map_partial",
    "C79_collision_refuted",
    "C79_not_hex_refuted"
   ],
   "note": "A map for hex keys that differ in their last four bytes. Refuted for keys that share them and keys that are not hex."
  },
  {
   "property": "C80",
   "status": "partial",
   "theorems": [
    "C80_older_page_partial",
    "C80_page_bounds",
    "C80_oldest_recorded",
    "C80_first_page_refuted",
    "C80_local_events_lost_refuted"
   ],
   "note": "Exact for pages at or before the recorded time; bounds and the recorded oldest time in all cases. Refuted: first page asks relays up to second 1; local events dropped when too few."
  },
  {
   "property": "C81",
   "status": "partial",
   "theorems": [
    "C81_profile_inputs",
    "C81_event_inputs",
    "C81_profile_crash_refuted",
    "C81_nobody_refuted"
   ],
   "note": "All valid inputs give their pointer. Refuted: an npub of the wrong length crashes, an nprofile without key gives an empty pointer."
  },
  {
   "property": "C82",
   "status": "partial",
   "theorems": [
    "C82_list",
    "C82_attempt_recorded",
    "C82_sets_partial",
    "C82_sets_crash",
    "C82_list_told",
    "C82_sets_told",
    "C82_sets_asked",
    "C82_sets_refuted"
   ],
   "note": "Lists in full; sets when the network answers. Refuted: stored sets, refresh due and no answer dereference nil."
  },
  {
   "property": "C83",
   "status": "partial",
   "theorems": [
    "C83_at_most_three",
    "C83_rotation",
    "C83_overflow_refuted",
    "C83_inbox",
    "C83_outbox_own",
    "C83_outbox_limit_refuted"
   ],
   "note": "At most three distinct relays; rotation until the counter overflows; outbox cache by key. Refuted: overflow panics, a cached outbox answer ignores the number asked for."
  },
  {
   "property": "C84",
   "status": "partial",
   "theorems": [
    "C84_what_it_does",
    "C84_all_tagged",
    "C84_repeated_refuted"
   ],
   "note": "Exactly which references get a tag. Refuted: repeated mentions and repeated preparation add the tags again."
  },
  {
   "property": "C85",
   "status": "partial",
   "theorems": [
    "C85_own_answer",
    "C85_late_answer",
    "C85_answer_taken",
    "C85_ids",
    "C85_ids_differ",
    "C85_returns_once",
    "C85_auth_refuted",
    "C85_no_crash_partial",
    "C85_answered_partial",
    "C85_twice_answered_refuted",
    "C85_cancelled_refuted",
    "C85_lost_signal_refuted"
   ],
   "note": "Own answer, once, distinct ids for all schedules. No crash and delivery if answers come once and no context ends. Refuted: a repeated answer or a cancellation closes the channel under the reader; an early signal is lost; auth URLs are never shown."
  },
  {
   "property": "C86",
   "status": "partial",
   "theorems": [
    "C86_hex",
    "C86_same_key",
    "C86_others_refused",
    "C86_odd_refuted",
    "C86_nothing_refuted"
   ],
   "note": "Hex keys of at most 64 digits. Refuted: odd number of digits, empty input."
  },
  {
   "property": "C87",
   "status": "proved",
   "theorems": [
    "C87_both_sides",
    "C87_sent_exactly"
   ],
   "note": "Both wraps unwrap to the message for all lawful ciphers."
  },
  {
   "property": "C88",
   "status": "partial",
   "theorems": [
    "C88_round_trip",
    "C88_last_read_stands",
    "C88_newest_loses_refuted",
    "C88_unreadable_refuted",
    "C88_clear_tags_refuted"
   ],
   "note": "Round trip for lawful codecs. Refuted: the last event read stands, not the newest; an unreadable event replaces the good one; plain tags are dropped."
  },
  {
   "property": "C89",
   "status": "proved",
   "theorems": [
    "C89_zero_refuted",
    "C89_complete"
   ],
   "note": "All entries with a positive amount, all lawful codecs. Amount zero is refused when read (refuted)."
  },
  {
   "property": "C90",
   "status": "partial",
   "theorems": [
    "C90_round_trip",
    "C90_fresh",
    "C90_reuse_refuted",
    "C90_eligible",
    "C90_exact_amount_refuted",
    "C90_nutzap_unlocked_refuted",
    "C90_mints_read",
    "C90_not_accepted",
    "C90_goes_outside",
    "C90_sends",
    "C90_crash"
   ],
   "note": "Round trip into a fresh Info; a mint is tried exactly when trusted and holding over the amount plus one percent plus two. Refuted: the proofs are never locked to the recipient; reuse keeps old relays."
  },
  {
   "property": "C91",
   "status": "partial",
   "theorems": [
    "C91_accepts",
    "C91_rejects",
    "C91_no_dleq_refuted",
    "C91_no_key_refuted",
    "C91_repeated_refuted",
    "C91_empty_refuted"
   ],
   "note": "Accepted means every readable proof is signed and the sum is theirs modulo 2^64. Refuted: crashes, repeated proofs count twice, unreadable proofs are ignored."
  },
  {
   "property": "C92",
   "status": "partial",
   "theorems": [
    "C92_deadlock_refuted",
    "C92_exclusion",
    "C92_other_events"
   ],
   "note": "Exclusion for all schedules; progress when no token event comes. Refuted: a send and a token event deadlock."
  },
  {
   "property": "C93",
   "status": "partial",
   "theorems": [
    "C93_mentions",
    "C93_in_order",
    "C93_pointer",
    "C93_references",
    "C93_total",
    "C93_crash_refuted",
    "C93_hint_refuted"
   ],
   "note": "Exact for all contents; no crash when no code makes the decoder panic. Refuted: a malformed naddr crashes it, and an empty hint is taken."
  },
  {
   "property": "C94",
   "status": "partial",
   "theorems": [
    "C94_root",
    "C94_parent",
    "C94_mention_not_parent",
    "C94_comment_root",
    "C94_comment_parent",
    "C94_root_refuted",
    "C94_parent_address_refuted",
    "C94_comment_refuted"
   ],
   "note": "Both functions for all tag lists. Refuted: an unreadable marked tag yields an empty pointer and hides a good one, an a tag is read as an event id."
  },
  {
   "property": "C96",
   "status": "partial",
   "theorems": [
    "C96_protected",
    "C96_embedded_sound",
    "C96_embedded_complete_partial",
    "C96_hidden_refuted",
    "C96_spelling_refuted"
   ],
   "note": "Sound for all events as the library writes them; complete when no item of a tag contains two closing brackets. Refuted: such an item hides the tag, and so does a space after the key."
  },
  {
   "property": "C97",
   "status": "partial",
   "theorems": [
    "C97_subject",
    "C97_alt",
    "C97_expiration",
    "C97_expires",
    "C97_expiration_refuted",
    "C97_media",
    "C97_get",
    "C97_size_refuted",
    "C97_spoiled_refuted"
   ],
   "note": "For all tag lists. Refuted: expiration -1 is ambiguous, negative sizes are taken, one bad size discards every entry."
  },
  {
   "property": "C95",
   "status": "partial",
   "theorems": [
    "C95_valid",
    "C95_parse",
    "C95_no_crash",
    "C95_normalize",
    "C95_normal_unique",
    "C95_url",
    "C95_url_injective",
    "C95_server_reads_partial",
    "C95_server_reads_exactly",
    "C95_plus_refuted",
    "C95_normalize_twice_refuted",
    "C95_query",
    "C95_query_no_crash",
    "C95_query_normal"
   ],
   "note": "All strings and servers; the regular expression is run by a matcher proved against its meaning. Refuted: a plus in the name is read as a space by the server; normalising twice differs on texts that are no identifiers. C95_server_reads_exactly: exactly which names the server reads as they are."
  },
  {
   "property": "C98",
   "status": "partial",
   "theorems": [
    "C98_decode",
    "C98_method",
    "C98_no_crash_partial",
    "C98_admin_refuted",
    "C98_panics_exactly",
    "C98_kind",
    "C98_kind_refuted",
    "C98_type_refuted"
   ],
   "note": "Every method for all params. Refuted: grantadmin and revokeadmin panic on every JSON request with two params; negative kinds and params of the wrong type are taken. C98_panics_exactly: exactly which requests crash it."
  },
  {
   "property": "C99",
   "status": "partial",
   "theorems": [
    "C99_nips_set",
    "C99_nips_once",
    "C99_nips_keep",
    "C99_reread_refuted",
    "C99_address",
    "C99_url_filled_partial",
    "C99_no_crash_partial",
    "C99_short_refuted",
    "C99_crash_refuted"
   ],
   "note": "Lists of ints for all numbers; URL filled when it has eight bytes. Refuted: a list read from JSON gets duplicates, a short URL is not returned, a URL that net/http refuses crashes."
  },
  {
   "property": "C100",
   "status": "partial",
   "theorems": [
    "C100_upload",
    "C100_reports",
    "C100_to_file",
    "C100_no_crash",
    "C100_to_file_refuted",
    "C100_delete",
    "C100_list",
    "C100_download",
    "C100_grant_once",
    "C100_download_refuted",
    "C100_changed_refuted",
    "C100_descriptor_refuted",
    "C100_nip96",
    "C100_nip96_status",
    "C100_server",
    "C100_slashes_refuted",
    "C100_unsigned_refuted"
   ],
   "note": "For all files and clocks, under the laws of the signature scheme. Refuted: a download is not hashed, the descriptor is not checked, a file can change after hashing, a failed signature sends the request anyway, the download address has two slashes."
  },
  {
   "property": "C101",
   "status": "partial",
   "theorems": [
    "C101_once",
    "C101_complete",
    "C101_bounded",
    "C101_progress_partial",
    "C101_one_way_refuted",
    "C101_leak_refuted",
    "C101_crash_refuted",
    "C101_pool_partial",
    "C101_pool_refuted",
    "C101_ids",
    "C101_ids_go_on",
    "C101_ids_hang_refuted"
   ],
   "note": "Once, in batches, complete on success and bounded runs for all relays and schedules; always returns when each direction is synced or its ids fit the channel. Refuted: one direction with 65 ids of the other hangs; an error leaves goroutines waiting; a further final message crashes it; the pool hands a list out twice; FetchIDsOnly hangs on an error."
  },
  {
   "property": "C102",
   "status": "partial",
   "theorems": [
    "C102_first",
    "C102_unsubscribed",
    "C102_answered",
    "C102_reader_partial",
    "C102_twice_refuted",
    "C102_late_refuted",
    "C102_closed_refuted",
    "C102_sound",
    "C102_merge_partial",
    "C102_merge_refuted"
   ],
   "note": "First reply and no invented register values, for all schedules. Refuted: a second or late reply blocks the connection's reader for ever; a CLOSED does not end the wait; unlocked merging can lose the larger value. With a lock the merge is right."
  },
  {
   "property": "C103",
   "status": "partial",
   "theorems": [
    "C103_round_trip",
    "C103_event",
    "C103_req",
    "C103_label_alone_refuted",
    "C103_count_in_req_refuted",
    "C103_approximate_refuted",
    "C103_empty_id_refuted",
    "C103_no_event_refuted",
    "C103_null_refuted",
    "C103_when_returned",
    "C103_overwritten_refuted",
    "C103_kept_partial"
   ],
   "note": "Round trip for all messages that carry what the parser looks for, and the values at the time of return, for all histories. Kept afterwards: false of the code, whose value receiver rewinds the buffers (refuted); proved for the program with a pointer receiver. Also refuted: label alone, count inside a REQ, approximate counts, empty ids, missing events, nulls."
  },
  {
   "property": "C104",
   "status": "partial",
   "theorems": [
    "C104_limits",
    "C104_start",
    "C104_client_frames",
    "C104_server_frames_partial",
    "C104_server_frames_any",
    "C104_server_frames_refuted",
    "C104_complete_refuted"
   ],
   "note": "First message small; the client's messages stay within the limit whatever the relay sends; the server's too when the bounds it is sent are at most one id long, and otherwise exceed it by no more than the message answered. Refuted: a long bound makes a server exceed its limit; with a limit on both sides a session of honest peers ends without error and ids are lost."
  },
  {
   "property": "C105",
   "status": "partial",
   "theorems": [
    "C105_virtual",
    "C105_local_in_tests_refuted",
    "C105_exact",
    "C105_same_hints",
    "C105_no_crash_partial",
    "C105_no_virtual_partial",
    "C105_newest",
    "C105_unrecorded",
    "C105_real_relays",
    "C105_crash_refuted",
    "C105_virtual_in_list_refuted",
    "C105_empty_relay_refuted",
    "C105_virtual_hint_refuted",
    "C105_nobody_refuted"
   ],
   "note": "The hints of one event are exactly those described, the newest time after any history, relays recorded are real and seen. Refuted: a hostile text crashes the tracker; relay lists save virtual and empty relays; capitals pass the test for virtual relays; a code without author teaches a hint about nobody; in tests 127.0.0.1 is virtual, localhost is not."
  },
  {
   "property": "C106",
   "status": "partial",
   "theorems": [
    "C106_fetch",
    "C106_run",
    "C106_own_profile_partial",
    "C106_week",
    "C106_keys_distinct",
    "C106_record_key",
    "C106_npub_short",
    "C106_npub_short_crash",
    "C106_short_name",
    "C106_nip05_none",
    "C106_nip05",
    "C106_nip05_queries",
    "C106_nip05_outage_refuted",
    "C106_input",
    "C106_input_fails",
    "C106_own_profile_refuted",
    "C106_unreadable_refuted",
    "C106_short_name_refuted",
    "C106_long_key_refuted"
   ],
   "note": "For all sequences of calls. Own profile when no two keys share the last eight bytes the cache looks at. Refuted: a key that shares them shows the other person's profile; a stored text that cannot be read hides a good one of the same age; the short name crashes for bad keys; a failed query counts as invalid for a week."
  },
  {
   "property": "C107",
   "status": "partial",
   "theorems": [
    "C107_local",
    "C107_crash",
    "C107_result",
    "C107_filter",
    "C107_named",
    "C107_asked",
    "C107_second_attempt",
    "C107_author_relays_partial",
    "C107_relays",
    "C107_input_codes",
    "C107_input_hex_codes",
    "C107_input_id",
    "C107_sorts_example",
    "C107_last_resort_refuted",
    "C107_priority_first_refuted",
    "C107_author_relays_refuted",
    "C107_profile_refuted",
    "C107_address_refuted"
   ],
   "note": "Exact result for all pointers and answers. Author's relays all asked when none is named already. Refuted: priority relays come last, not first; waiting asks the general relays although the event was found; the author's relays are dropped after one that is already there; a profile pointer returns anything; an address can return an article with another first d tag."
  },
  {
   "property": "C108",
   "status": "partial",
   "theorems": [
    "C108_generated",
    "C108_nearly_uniform",
    "C108_public",
    "C108_public_parses",
    "C108_public_injective",
    "C108_agree",
    "C108_signature_checks",
    "C108_signs",
    "C108_not_malleable",
    "C108_laws",
    "C108_range_exact",
    "C108_zero_key_refuted",
    "C108_short_key_refuted",
    "C108_no_random_refuted",
    "C108_no_zero_signature",
    "C108_long_key_refuted",
    "C108_demo_lawful",
    "C108_demo_laws"
   ],
   "note": "For every curve satisfying the group laws written as hypotheses; an instance of the order of secp256k1 satisfies them. From these follow the laws of keys and signatures that the other files assume. The schnorr algorithm is the library's, written from BIP-340. Refuted: a zero key in another spelling (empty, 00, the order in capitals) is not refused and gives a shared secret of zeros whoever the peer is; short keys in range can be refused; when the random reader fails the key is the empty text, and has a public key of zeros; bytes after the first 32 of a key are ignored."
  },
  {
   "property": "C109",
   "status": "partial",
   "theorems": [
    "C109_constructed",
    "C109_receiver_accepts",
    "C109_honest",
    "C109_sound",
    "C109_sound_receiver",
    "C109_blind",
    "C109_no_dleq_refuted",
    "C109_too_many_refuted",
    "C109_linked_refuted",
    "C109_constructs_or_fails",
    "C109_verify_crash",
    "C109_accepted"
   ],
   "note": "On every curve of prime order satisfying the group laws; the functions of gonuts are written from NUT-00 and NUT-12. Refuted: a signature without DLEQ is accepted whatever the point; more signatures than outputs panic; a proof with its DLEQ shows which blinded message it came from."
  },
  {
   "property": "C110",
   "status": "partial",
   "theorems": [
    "C110_accounted",
    "C110_forwarded",
    "C110_stored",
    "C110_dropped",
    "C110_first_run",
    "C110_oldest_first",
    "C110_no_panic",
    "C110_panics",
    "C110_closes",
    "C110_can_end",
    "C110_consumer_leaves_refuted",
    "C110_no_keys_refuted",
    "C110_saved",
    "C110_resume",
    "C110_oldest_unwritten",
    "C110_backfill_lost_refuted",
    "C110_late_request_refuted",
    "C110_record_key",
    "C110_record_key_not_hex",
    "C110_shared_record_refuted"
   ],
   "note": "For all interleavings. Refuted: with a record, the goroutine moves the since of the filter while the stored events are still coming, so newest-first answers lose the older events and mark them as seen; a relay asked later is asked for less; a consumer that stops reading leaves the goroutine blocked for ever and the channel open; no keys, never closed; keys with the same first eight bytes share a record; the oldest record is never written."
  },
  {
   "property": "C111",
   "status": "partial",
   "theorems": [
    "C111_at_most_once",
    "C111_only_sent",
    "C111_closed_last",
    "C111_all_delivered_partial",
    "C111_moves_end",
    "C111_closes",
    "C111_closes_after_cancel",
    "C111_all_delivered_refuted",
    "C111_single_found",
    "C111_single_nothing",
    "C111_single_no_leak",
    "C111_single_nothing_refuted",
    "C111_options",
    "C111_options_shared",
    "C111_options_shared_refuted"
   ],
   "note": "C111_all_delivered_refuted: the filters share the ids seen, so one bad or late copy hides the event. C111_all_delivered_partial is the rest. C111_options_shared says exactly when two calls share an option slice safely."
  },
  {
   "property": "C112",
   "status": "partial",
   "theorems": [
    "C112_one_dial",
    "C112_one_connection",
    "C112_no_needless_dial",
    "C112_result",
    "C112_alive_when_returned",
    "C112_shared",
    "C112_reused",
    "C112_moves_end",
    "C112_no_deadlock",
    "C112_closed_pool",
    "C112_waits",
    "C112_relays_block_each_other",
    "C112_close_ends_all_refuted"
   ],
   "note": "C112_close_ends_all_refuted: closing the pool closes no connection. C112_relays_block_each_other: among 51 relays two block each other, whatever the hash."
  },
  {
   "property": "C113",
   "status": "partial",
   "theorems": [
    "C113_canonical_exists",
    "C113_plain",
    "C113_https",
    "C113_same_exactly",
    "C113_idempotent_exactly",
    "C113_merged",
    "C113_distinct_refuted",
    "C113_idempotent_refuted",
    "C113_valid_refuted",
    "C113_value_kept_refuted",
    "C113_scheme_refuted",
    "C113_fragment",
    "C113_empty_query",
    "C113_capital_s",
    "C113_blanks",
    "C113_control",
    "C113_escapes_kept",
    "C113_spaces_inside",
    "C113_escape_lost_refuted",
    "C113_scheme_read",
    "C113_not_blank"
   ],
   "note": "C113_distinct_refuted, C113_merged: the query is written without its escapes, so different urls merge. C113_idempotent_refuted, C113_valid_refuted, C113_value_kept_refuted, C113_scheme_refuted: other inputs for which it changes the meaning. C113_escape_lost_refuted: a path with both a space and %2F loses the %2F. net/url is modelled without user names and IP literals."
  },
  {
   "property": "C114",
   "status": "partial",
   "theorems": [
    "C114_add",
    "C114_keysets_apart",
    "C114_add_works",
    "C114_dead_mint_refuted",
    "C114_remove",
    "C114_removed",
    "C114_cancel",
    "C114_key",
    "C114_key_kept",
    "C114_mints",
    "C114_published",
    "C114_others_read",
    "C114_token",
    "C114_token_same",
    "C114_token_errors",
    "C114_input_signed",
    "C114_output_signed",
    "C114_signs",
    "C114_sign_no_crash",
    "C114_no_key_refuted",
    "C114_active",
    "C114_keyset_by_id",
    "C114_token_id",
    "C114_keyset_by_id_refuted",
    "C114_atomic_refuted",
    "C114_removed_refuted",
    "C114_again_refuted",
    "C114_zero_key_refuted",
    "C114_short_key_refuted",
    "C114_two_devices_refuted",
    "C114_token_refuted"
   ],
   "note": "Proved: C114_add, _keysets_apart, _add_works (exact), _remove (exact by counting), _removed, _cancel, _key (exact), _key_kept, _mints (over any sequence of calls), _published, _others_read, _token, _token_same (exact), _token_errors, _input_signed, _output_signed, _active. Refuted: calls that fail change nothing; what was removed is gone; a mint that is there can be added again; a dead mint does not matter; zero and short keys are refused; two devices agree; tokens read back as saved; no crash without a key or for an empty answer."
  },
  {
   "property": "C115",
   "status": "partial",
   "theorems": [
    "C115_accepts",
    "C115_same",
    "C115_accepts_exactly",
    "C115_second_text",
    "C115_panics_exactly",
    "C115_default_never_panics",
    "C115_signed",
    "C115_good_key",
    "C115_out_of_range",
    "C115_no_hex",
    "C115_empty_key",
    "C115_one_text_refuted",
    "C115_no_panic_refuted",
    "C115_same_keys_refuted",
    "C115_short_key_refuted"
   ],
   "note": "C115_panics_exactly says when CheckSignature panics. C115_one_text_refuted, C115_no_panic_refuted, C115_same_keys_refuted and C115_short_key_refuted are the differences. The arithmetic of the C library is the curve of KeyModel; the hash of the challenge and the nonce are parameters."
  },
  {
   "property": "C116",
   "status": "partial",
   "theorems": [
    "C116_reads",
    "C116_round_trip",
    "C116_other_scheme",
    "C116_valid_connects",
    "C116_no_crash",
    "C116_valid_exactly",
    "C116_valid_has_relay_partial",
    "C116_valid_no_relay_refuted",
    "C116_identifier",
    "C116_identifier_no_list_refuted",
    "C116_no_relays_never",
    "C116_connects",
    "C116_reads_nip04",
    "C116_reader_skips",
    "C116_odd_key_refuted",
    "C116_client_key_refuted",
    "C116_forged_refuted",
    "C116_reader_crash_refuted"
   ],
   "note": "C116_valid_has_relay_partial: IsValidBunkerURL tells whether there is a relay only if no other name ends in \"relay\" (C116_valid_no_relay_refuted). The last sentence of the claim is refuted by C116_odd_key_refuted and C116_client_key_refuted. Urls with a user name or brackets in the authority are not modelled. The JSON of requests and responses is a parameter."
  },
  {
   "property": "C117",
   "status": "partial",
   "theorems": [
    "C117_in_turn",
    "C117_each_once",
    "C117_next_crash",
    "C117_overflow_refuted",
    "C117_same_time",
    "C117_same_time_refuted",
    "C117_search",
    "C117_search_asks",
    "C117_search_refuted",
    "C117_limit",
    "C117_limit_shared_partial",
    "C117_limit_falls",
    "C117_limit_shared_refuted",
    "C117_limit_rises_refuted"
   ],
   "note": "The claim holds in part: Next crashes when its counter has passed the largest int (C117_overflow_refuted) and calls at the same time may get the same relay (C117_same_time_refuted); SearchUsers lists events of any kind (C117_search_refuted); limits below four are raised to four (C117_limit_shared_refuted). math.Pow and the division are taken exactly, where the code rounds."
  },
  {
   "property": "C118",
   "status": "proved",
   "theorems": [
    "C118_no_crash",
    "C118_closed_once",
    "C118_complete",
    "C118_goes_on",
    "C118_ends",
    "C118_nobody",
    "C118_found",
    "C118_same_middle",
    "C118_items",
    "C118_order",
    "C118_empty",
    "C118_make_crash",
    "C118_ask_crash",
    "C118_trusted"
   ],
   "note": "The claim holds. xorfilter.Populate and Contains are parameters with the law that a filter made of different numbers holds each of them. That only those in the circle are found is false: C118_same_middle_refuted (and a filter of eight bits has false positives besides)."
  },
  {
   "property": "C119",
   "status": "partial",
   "theorems": [
    "C119_result",
    "C119_complete",
    "C119_each_once",
    "C119_terminates",
    "C119_ends",
    "C119_no_crash_partial",
    "C119_close_sent",
    "C119_closed_loses_refuted",
    "C119_refusal_silent_refuted",
    "C119_goroutines_left_refuted",
    "C119_unconnected_left_refuted",
    "C119_no_crash_refuted",
    "C119_room"
   ],
   "note": "A machine around that of C43-C45. Partial: ended before the request is written it can crash (C119_no_crash_refuted), after a CLOSED events that came before it can be lost (C119_closed_loses_refuted)."
  },
  {
   "property": "C120",
   "status": "partial",
   "theorems": [
    "C120_no_early_end",
    "C120_terminates",
    "C120_ends_with_network",
    "C120_ends_when_all_gone",
    "C120_cleans_up",
    "C120_addressable_ends_partial",
    "C120_asked",
    "C120_result",
    "C120_counter_lost_refuted"
   ],
   "note": "Partial: the addressable loader's plain counter can lose a decrement, then it does not return when everybody has left (C120_counter_lost_refuted)."
  },
  {
   "property": "C121",
   "status": "partial",
   "theorems": [
    "C121_relays",
    "C121_parts",
    "C121_closed",
    "C121_in_use_open",
    "C121_same_store_refuted",
    "C121_nil_kept_refuted"
   ],
   "note": "Partial: the same key-value store given twice is closed and then used (C121_same_store_refuted); a nil key-value store or hints database is kept (C121_nil_kept_refuted)."
  },
  {
   "property": "C122",
   "status": "partial",
   "theorems": [
    "C122_tables",
    "C122_no_mixing",
    "C122_published",
    "C122_own_list_partial",
    "C122_cached",
    "C122_own_record",
    "C122_left_alone",
    "C122_alone_list",
    "C122_alone_sets",
    "C122_ends",
    "C122_own_list_refuted",
    "C122_asked_once_refuted",
    "C122_newest_cached_refuted"
   ],
   "note": "Partial: with two keys that share their last four bytes one gets the other's list (C122_own_list_refuted); equal calls at once all ask the network (C122_asked_once_refuted) and the last to end fills the cache, with an older list perhaps (C122_newest_cached_refuted)."
  },
  {
   "property": "C123",
   "status": "partial",
   "theorems": [
    "C123_state",
    "C123_patches",
    "C123_patch_repository",
    "C123_same_name",
    "C123_same_name_refuted",
    "C123_owner_refuted",
    "C123_dm_relays",
    "C123_dm_newest_refuted",
    "C123_no_limit",
    "C123_external",
    "C123_external_filter_refuted",
    "C123_external_short_refuted"
   ],
   "note": "Partial: the author of a state is not asked for or checked (C123_owner_refuted), an announcement with two \"d\" tags is looked up under both names (C123_same_name_refuted), the list of relays may be an old one (C123_dm_newest_refuted), and a pointer to something outside has a filter that matches everything (C123_external_filter_refuted)."
  },
  {
   "property": "C124",
   "status": "partial",
   "theorems": [
    "C124_endpoint",
    "C124_distinct",
    "C124_id_refuted",
    "C124_query_refuted",
    "C124_body",
    "C124_can_send",
    "C124_released",
    "C124_leak_refuted"
   ],
   "note": "Ids are not escaped (C124_id_refuted); a mint address with a query, which the wallet's normal form keeps, sends the endpoint into the query (C124_query_refuted); with an address that NewRequest refuses the writing goroutine waits for ever (C124_leak_refuted). Not modelled: the JSON of the requests and answers, the transport below Read and Close."
  },
  {
   "property": "C125",
   "status": "partial",
   "theorems": [
    "C125_asks",
    "C125_asks_deletions",
    "C125_opened",
    "C125_holds",
    "C125_ready_after_both",
    "C125_plain_deletion_refuted"
   ],
   "note": "The last sentence is false: deletions that do not name the kind are not asked for (C125_plain_deletion_refuted). Races between the handlers and the end of stored events are C71's."
  },
  {
   "property": "C126",
   "status": "partial",
   "theorems": [
    "C126_ascii",
    "C126_fixed",
    "C126_case",
    "C126_fixed_refuted",
    "C126_seed"
   ],
   "note": "Proved for ASCII names. Outside ASCII the name of a name may be another one (C126_fixed_refuted). Unicode's tables and BIP-32's steps are parameters; their laws are hypotheses, shown to hold of an instance."
  },
  {
   "property": "C127",
   "status": "partial",
   "theorems": [
    "C127_scheme",
    "C127_plain",
    "C127_no_host_refuted",
    "C127_tag_relay",
    "C127_a_tag_refuted",
    "C127_all",
    "C127_scan_refuted",
    "C127_scan"
   ],
   "note": "The host may be missing (C127_no_host_refuted), relays of a tags are not given (C127_a_tag_refuted), Scan drops the error (C127_scan_refuted). net/url without user information and brackets."
  },
  {
   "property": "C128",
   "status": "partial",
   "theorems": [
    "C128_public_key",
    "C128_ping",
    "C128_encrypt44",
    "C128_decrypt44",
    "C128_encrypt04",
    "C128_decrypt04",
    "C128_sign",
    "C128_refused",
    "C128_auth_url_refuted",
    "C128_empty_refuted",
    "C128_long_refuted",
    "C128_key_cached",
    "C128_key_asked",
    "C128_key_unchecked_refuted"
   ],
   "note": "The three texts that never come back are refuted cases of the plain claim; a public key that the signer makes up is taken unchecked."
  },
  {
   "property": "C129",
   "status": "partial",
   "theorems": [
    "C129_places",
    "C129_two_any_length",
    "C129_two",
    "C129_three",
    "C129_keys",
    "C129_four_refuted",
    "C129_three_far_refuted",
    "C129_two_far_refuted"
   ],
   "note": "The limits 79 and 192 are exact: with 80 and 193 characters there are undetected changes (refuted). The remainders of all single and pairwise changes in one period of 1023 places are computed by the kernel; the lift to all texts is by induction."
  },
  {
   "property": "C130",
   "status": "partial",
   "theorems": [
    "C130_spots",
    "C130_arguments",
    "C130_columns",
    "C130_texts",
    "C130_one_column",
    "C130_fresh",
    "C130_from_one",
    "C130_again",
    "C130_usable",
    "C130_hints_kept_refuted",
    "C130_later",
    "C130_later_refuted"
   ],
   "note": "The meaning of the SQL itself is the model's: DROP COLUMN fails on a missing column, ADD COLUMN on a present one, and a statement is prepared if its columns exist."
  }
 ]
}