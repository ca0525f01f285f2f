{
 "claims": [
  {
   "property": "C01",
   "status": "proved",
   "theorems": [
    "C01_capacity"
   ],
   "note": "All histories of writes, reads and truncations of the sequential store; the concurrent version is C20."
  },
  {
   "property": "C02",
   "status": "proved",
   "theorems": [
    "C02_isolation"
   ],
   "note": "One write, in any state of the store: no hypothesis on how it was reached."
  },
  {
   "property": "C03",
   "status": "proved",
   "theorems": [
    "C03_put"
   ],
   "note": "Positive counterpart of C04."
  },
  {
   "property": "C04",
   "status": "partial",
   "theorems": [
    "C04_write_destroys_refuted",
    "C03_put"
   ],
   "note": "False of the code: when all the storage times tried for an envelope are taken, another envelope is overwritten. When one is free (`room`) the property is C03_put."
  },
  {
   "property": "C05",
   "status": "proved",
   "theorems": [
    "C05_get_sound"
   ],
   "note": "Any state of the store, reachable or not."
  },
  {
   "property": "C06",
   "status": "proved",
   "theorems": [
    "C06_get_exact"
   ],
   "note": "For histories in which no two envelopes of a source have the same timestamp; without that condition see C07 and C08."
  },
  {
   "property": "C07",
   "status": "proved",
   "theorems": [
    "C07_get_prefix"
   ],
   "note": "For sources whose storage order follows time order; without that condition see C08."
  },
  {
   "property": "C08",
   "status": "partial",
   "theorems": [
    "C08_get_misses_refuted",
    "C05_get_sound",
    "C06_get_exact",
    "C07_get_prefix"
   ],
   "note": "False of the code: runs of equal timestamps that overlap later timestamps hide envelopes from Get. What holds: C06_get_exact (distinct timestamps), C07_get_prefix (storage order follows time order), C05_get_sound (always)."
  },
  {
   "property": "C09",
   "status": "partial",
   "theorems": [
    "C09_limit_splits_group_refuted",
    "C07_get_prefix"
   ],
   "note": "False of the code: the limit counts envelopes, so it can split a group. What holds: C07_get_prefix, the answer is a prefix and everything is there when it is shorter than the limit."
  },
  {
   "property": "C10",
   "status": "proved",
   "theorems": [
    "C10_name_filter_sound",
    "C10_name_filter_exact"
   ],
   "note": ""
  },
  {
   "property": "C11",
   "status": "proved",
   "theorems": [
    "C11_truncation"
   ],
   "note": ""
  },
  {
   "property": "C12",
   "status": "proved",
   "theorems": [
    "C12_size_exact"
   ],
   "note": ""
  },
  {
   "property": "C13",
   "status": "partial",
   "theorems": [
    "C13_size_drifts_refuted",
    "C12_size_exact"
   ],
   "note": "False of the code: an overwriting write increments the size. What holds without such crowding: C12_size_exact."
  },
  {
   "property": "C14",
   "status": "proved",
   "theorems": [
    "C14_meta"
   ],
   "note": ""
  },
  {
   "property": "C15",
   "status": "proved",
   "theorems": [
    "C15_no_panic"
   ],
   "note": ""
  },
  {
   "property": "C16",
   "status": "partial",
   "theorems": [
    "C16_truncate_panics_refuted",
    "C16_zero_limit_panics_refuted",
    "C16_unknown_type_panics_refuted",
    "C15_no_panic"
   ],
   "note": "False of the code: crowding lets truncation run on an empty heap; a per-source limit below 1 and an unknown envelope type panic. What holds without them: C15_no_panic."
  },
  {
   "property": "C17",
   "status": "partial",
   "theorems": [
    "C17_clock_skips_oldest_refuted",
    "C17_clock_is_some_oldest_partial"
   ],
   "note": "False of the code: after a truncation an envelope older than the reported clock can still be stored. Proved part: the reported clock is the oldest stored time of some source. Missing: that it is the least one."
  },
  {
   "property": "C18",
   "status": "proved",
   "theorems": [
    "C18_conservation"
   ],
   "note": ""
  },
  {
   "property": "C19",
   "status": "proved",
   "theorems": [
    "C19_index"
   ],
   "note": ""
  },
  {
   "property": "C20",
   "status": "proved",
   "theorems": [
    "C20_capacity_concurrent"
   ],
   "note": ""
  },
  {
   "property": "C21",
   "status": "proved",
   "theorems": [
    "C21_no_panic_without_truncation",
    "C21_no_write_lost",
    "C21_count_exact",
    "C21_all_visible"
   ],
   "note": ""
  },
  {
   "property": "C22",
   "status": "partial",
   "theorems": [
    "C22_write_lost_refuted",
    "C22_conservation_partial",
    "C22_no_loss_orderly_partial",
    "C22_no_loss_stays_partial",
    "C22_count_orderly_partial"
   ],
   "note": "False of the code: a write that races a truncation goes to a storage no longer in the index. Proved parts: every written envelope is in some storage or counted as expired, in every schedule; and in orderly schedules (while a truncation works, Puts under way are to sources with something stored, and no Meta is under way when a source is dropped) every written envelope is visible or counted as expired and the size counter counts what is visible. Missing: the same for every schedule, which is false. A third part (C22_no_loss_stays_partial): for a source that is not dropped meanwhile, in every schedule, what was written is what it shows plus as many as its expired count says."
  },
  {
   "property": "C23",
   "status": "partial",
   "theorems": [
    "C23_new_storage_refuted",
    "C23_runs_dry_refuted",
    "C23_meta_race_refuted",
    "C23_no_panic_partial",
    "C23_no_panic_orderly_partial"
   ],
   "note": "False of the code with truncation running: three schedules that crash. Proved parts: no schedule without truncation crashes, and no orderly schedule (as in C22) crashes, truncations included. Missing: the same for every schedule, which is false."
  },
  {
   "property": "C24",
   "status": "proved",
   "theorems": [
    "C24_get_atomic"
   ],
   "note": ""
  },
  {
   "property": "C25",
   "status": "partial",
   "theorems": [
    "C25_no_total_refuted",
    "C25_bound_refuted",
    "C25_zero_refuted",
    "C25_bounded_partial",
    "C25_zero_partial"
   ],
   "note": "False of the code without a memory total, for counts above 2^53, and for sizes beyond the range of exact binary64. Proved part: within those ranges, on IEEE binary64 arithmetic. Rests on the standard library's axioms of the reals."
  },
  {
   "property": "C26",
   "status": "proved",
   "theorems": [
    "C26_read_validation"
   ],
   "note": ""
  },
  {
   "property": "C27",
   "status": "proved",
   "theorems": [
    "C27_type_filter",
    "C27_type_filter_exact"
   ],
   "note": ""
  },
  {
   "property": "C28",
   "status": "proved",
   "theorems": [
    "C28_partition"
   ],
   "note": ""
  },
  {
   "property": "C29",
   "status": "partial",
   "theorems": [
    "C29_any_count_refuted",
    "C29_zero_count_panics_refuted",
    "C28_partition"
   ],
   "note": "False of the code for 0 ranges and above 2^32. For 1 to 2^32 the property is C28_partition."
  },
  {
   "property": "C30",
   "status": "proved",
   "theorems": [
    "C30_lookup_exact"
   ],
   "note": ""
  },
  {
   "property": "C31",
   "status": "proved",
   "theorems": [
    "C31_last_request_decides"
   ],
   "note": ""
  },
  {
   "property": "C32",
   "status": "partial",
   "theorems": [
    "C32_unknown_addr_routed_refuted",
    "C32_other_nodes_partial"
   ],
   "note": "False of the code: the ranges of an address that is not in the list go to node 0. Proved part: the nodes chosen are exactly the owners, plus node 0 for such an address; with known addresses only owners remain."
  },
  {
   "property": "C33",
   "status": "proved",
   "theorems": [
    "C33_ingress_distribution",
    "C33_local_only"
   ],
   "note": ""
  },
  {
   "property": "C34",
   "status": "proved",
   "theorems": [
    "C34_read_routing"
   ],
   "note": ""
  },
  {
   "property": "C35",
   "status": "proved",
   "theorems": [
    "C35_read_your_writes"
   ],
   "note": ""
  },
  {
   "property": "C36",
   "status": "partial",
   "theorems": [
    "C36_read_forwarded_forever_refuted",
    "C36_mutual_partial",
    "C36_exact"
   ],
   "note": "False of the code: two nodes that name each other forward a read forever. Proved part: when every node that is named names itself, every read ends after at most one forwarding. C36_exact says exactly when: a read can circulate for ever if and only if nodes can pass it on without end, none naming itself; otherwise it is passed on less often than there are nodes."
  },
  {
   "property": "C37",
   "status": "proved",
   "theorems": [
    "C37_meta_aggregation"
   ],
   "note": ""
  },
  {
   "property": "C38",
   "status": "proved",
   "theorems": [
    "C38_meta_cache_fresh"
   ],
   "note": ""
  },
  {
   "property": "C39",
   "status": "proved",
   "theorems": [
    "C39_orchestrator_ranges"
   ],
   "note": ""
  },
  {
   "property": "C40",
   "status": "partial",
   "theorems": [
    "C40_answer_changes_refuted",
    "C40_stable_under_additions_partial"
   ],
   "note": "False of the code: a removal changes the cells of an answer given out before. Proved part: additions leave earlier answers as they were."
  },
  {
   "property": "C41",
   "status": "proved",
   "theorems": [
    "C41_static_cover"
   ],
   "note": ""
  },
  {
   "property": "C42",
   "status": "proved",
   "theorems": [
    "C42_walk_once_in_order",
    "C42_walk_complete",
    "C42_walk_store"
   ],
   "note": ""
  },
  {
   "property": "C43",
   "status": "proved",
   "theorems": [
    "C43_walk_window",
    "C43_any_reader"
   ],
   "note": ""
  },
  {
   "property": "C44",
   "status": "partial",
   "theorems": [
    "C44_walk_loses_refuted",
    "C42_walk_store"
   ],
   "note": "False of the code: a limit that splits a group of equal timestamps makes the walk skip the rest of it. What holds is stated in C42 and C43."
  },
  {
   "property": "C45",
   "status": "proved",
   "theorems": [
    "C45_retry_bound",
    "C45_retry_on_error_bound",
    "C45_always_done"
   ],
   "note": ""
  },
  {
   "property": "C46",
   "status": "proved",
   "theorems": [
    "C46_windows",
    "C46_window_contents"
   ],
   "note": ""
  },
  {
   "property": "C47",
   "status": "partial",
   "theorems": [
    "C47_unknown_refuted",
    "C47_options_partial"
   ],
   "note": "False for envelope types the API does not define: refused over HTTP, taken as ANY over gRPC. Proved part: the defined types, and source ids that a path can carry."
  },
  {
   "property": "C48",
   "status": "proved",
   "theorems": [
    "C48_read",
    "C48_routes"
   ],
   "note": ""
  },
  {
   "property": "C49",
   "status": "partial",
   "theorems": [
    "C49_bar_refuted",
    "C49_query_partial"
   ],
   "note": "False of the code when CAPI lists a guid that contains a bar. Proved part: no such guid, and a PromQL printer whose output the parser reads back; parser and printer are parameters."
  },
  {
   "property": "C50",
   "status": "proved",
   "theorems": [
    "C50_meta"
   ],
   "note": ""
  },
  {
   "property": "C51",
   "status": "partial",
   "theorems": [
    "C51_json_name_refuted",
    "C51_source_partial",
    "C51_hidden_field_refuted"
   ],
   "note": "False with a gateway library that finds fields under their JSON names, and with one that finds the hidden struct field (C51_hidden_field_refuted, with the wire format of C163). Proved part: every other library, or requests without such a parameter; source ids that end in a colon or contain a newline are left out."
  },
  {
   "property": "C52",
   "status": "partial",
   "theorems": [
    "C52_age_refuted",
    "C52_cache_partial"
   ],
   "note": "False in that the age counts from the end of the listing. Proved part: yes only from a complete listing for that token whose lifetime since its end is not over. Missing: a bound from the moment CAPI answered."
  },
  {
   "property": "C53",
   "status": "proved",
   "theorems": [
    "C53_pages",
    "C53_confined"
   ],
   "note": ""
  },
  {
   "property": "C54",
   "status": "proved",
   "theorems": [
    "C54_token"
   ],
   "note": ""
  },
  {
   "property": "C55",
   "status": "proved",
   "theorems": [
    "C55_throttle"
   ],
   "note": ""
  },
  {
   "property": "C56",
   "status": "partial",
   "theorems": [
    "C56_forged_refuted",
    "C56_one_line_partial"
   ],
   "note": "False of the code: a newline in the decoded path is written as is. Proved part: paths without newlines, and only they, write one line."
  },
  {
   "property": "C57",
   "status": "proved",
   "theorems": [
    "C57_identifier",
    "C57_idempotent",
    "C57_characters"
   ],
   "note": "Proved for every byte string (identifier, idempotent) and, character by character, for every text (C57_characters: UTF-8 as in RFC 3629, stated in Promql/SpecText.v)."
  },
  {
   "property": "C58",
   "status": "partial",
   "theorems": [
    "C58_conservation",
    "C58_collision_refuted",
    "C58_grouping_partial"
   ],
   "note": "False of the code: two label sets can have the same series id. Proved part: conservation always; exact grouping for clear labels (`clear_labels`)."
  },
  {
   "property": "C59",
   "status": "partial",
   "theorems": [
    "C59_matchers_refuted",
    "C59_selected_partial"
   ],
   "note": "False of the code: != and regexps on tags are compared as equalities, instance_id matchers and several source_id matchers select too much. Proved part: plain selectors (equalities, one source_id matcher)."
  },
  {
   "property": "C60",
   "status": "proved",
   "theorems": [
    "C60_seek",
    "C60_iterate"
   ],
   "note": ""
  },
  {
   "property": "C61",
   "status": "partial",
   "theorems": [
    "C61_incomplete_refuted",
    "C61_complete_partial"
   ],
   "note": "False of the code: a failed read, or a window that ends within the last second, yields partial data without an error. Proved part: complete when no read fails and the content is at least a second old."
  },
  {
   "property": "C62",
   "status": "partial",
   "theorems": [
    "C62_unset_refuted",
    "C62_encodes",
    "C62_round_trip_partial",
    "C62_millis"
   ],
   "note": "False for a result with no member set. Proved part: results that are set, with labels of valid UTF-8; number formatting is a parameter with stated assumptions."
  },
  {
   "property": "C63",
   "status": "partial",
   "theorems": [
    "C63_lost_refuted",
    "C63_order_refuted",
    "C63_accounting_partial",
    "C63_forwarded_partial",
    "C63_flush"
   ],
   "note": "False of the code: a full channel drops a batch unreported, and workers reorder. Proved part: an account of every envelope; exactly once while the channel has room and the buffer is not overrun; in order with one worker."
  },
  {
   "property": "C64",
   "status": "proved",
   "theorems": [
    "C64_accounting",
    "C64_no_loss"
   ],
   "note": ""
  },
  {
   "property": "C65",
   "status": "proved",
   "theorems": [
    "C65_conversion",
    "C65_complete",
    "C65_accounting"
   ],
   "note": ""
  },
  {
   "property": "C66",
   "status": "partial",
   "theorems": [
    "C66_crash_refuted",
    "C66_complete_partial"
   ],
   "note": "False of the code: an incomplete message dereferences nil. Proved part: exactly the incomplete messages crash, and a server that meets only complete ones stays alive."
  },
  {
   "property": "C67",
   "status": "partial",
   "theorems": [
    "C67_limit_exceeded_refuted",
    "C67_excess_partial",
    "C06_get_exact"
   ],
   "note": "False of the code. Proved part: the excess is at most twice the number of envelopes held under another time than their own, so 0 when there are none."
  },
  {
   "property": "C68",
   "status": "partial",
   "theorems": [
    "C68_order_broken_refuted",
    "C68_in_order_partial"
   ],
   "note": "False of the code after evictions. Proved part: histories without evictions and truncations."
  },
  {
   "property": "C69",
   "status": "partial",
   "theorems": [
    "C69_unknown_type_crashes_refuted",
    "C69_enum_types_answered_partial"
   ],
   "note": "False of the code for numbers that name no envelope type. Proved part: all defined types."
  },
  {
   "property": "C70",
   "status": "proved",
   "theorems": [
    "C70_schedule_routes"
   ],
   "note": ""
  },
  {
   "property": "C71",
   "status": "partial",
   "theorems": [
    "C71_missing_batch_crashes_refuted",
    "C71_batch_partial"
   ],
   "note": "False of the code: a request without a batch is dereferenced. Proved part: requests with a batch."
  },
  {
   "property": "C72",
   "status": "partial",
   "theorems": [
    "C72_missing_range_crashes_refuted",
    "C72_with_range_partial"
   ],
   "note": "False of the code: a request without a range is dereferenced. Proved part: requests with ranges."
  },
  {
   "property": "C73",
   "status": "partial",
   "theorems": [
    "C73_duplicate_range_duplicates_refuted",
    "C73_once_each_partial"
   ],
   "note": "False of the code: overlapping ranges of one address duplicate writes. Proved part: assignments without overlap to known addresses."
  },
  {
   "property": "C74",
   "status": "partial",
   "theorems": [
    "C74_clients_aligned_partial",
    "C74_failed_dial_shifts_refuted"
   ],
   "note": "False of the code: a failed dial shifts every later client. Proved part: no failed dial."
  },
  {
   "property": "C75",
   "status": "proved",
   "theorems": [
    "C75_no_deadlock"
   ],
   "note": ""
  },
  {
   "property": "C76",
   "status": "proved",
   "theorems": [
    "C76_get_linearizable",
    "C76_content_linearizable"
   ],
   "note": ""
  },
  {
   "property": "C77",
   "status": "partial",
   "theorems": [
    "C77_instance_refuted",
    "C77_complete_partial"
   ],
   "note": "False of the code for instance_id matchers and for matchers with empty values. Proved part: plain selectors without them."
  },
  {
   "property": "C78",
   "status": "partial",
   "theorems": [
    "C78_disorder_refuted",
    "C78_order_partial",
    "C78_order_one_source"
   ],
   "note": "False of the code: series merged by a coinciding id are out of order. Proved part: ordered reads with clear labels, or a single source."
  },
  {
   "property": "C79",
   "status": "proved",
   "theorems": [
    "C79_extract",
    "C79_reads_asked"
   ],
   "note": ""
  },
  {
   "property": "C80",
   "status": "partial",
   "theorems": [
    "C80_rewrite_partial",
    "C80_bar_refuted"
   ],
   "note": "False when an expansion contains a bar. Proved part: non-empty expansions without one."
  },
  {
   "property": "C81",
   "status": "partial",
   "theorems": [
    "C81_order_refuted",
    "C81_order_partial",
    "C81_outcomes",
    "C81_exact"
   ],
   "note": "False: structured data is visited in map order. Proved part: messages with at most one element (C81_*_partial), and exactly which messages have one outcome: those all of whose elements come to the same (C81_exact)."
  },
  {
   "property": "C82",
   "status": "partial",
   "theorems": [
    "C82_race_refuted",
    "C82_rejected_refuted",
    "C82_accounting_partial",
    "C82_race_all_refuted",
    "C82_serial_partial"
   ],
   "note": "False: concurrent callers lose envelopes uncounted, and a request the peer rejects is neither repeated nor counted (C82_rejected_refuted). Proved part: one caller at a time, requests the peer accepts."
  },
  {
   "property": "C83",
   "status": "partial",
   "theorems": [
    "C83_share_partial",
    "C83_wrap_refuted"
   ],
   "note": "False when heap*100 wraps around. Proved part: within 2 of the exact value in the stated ranges. Rests on the standard library's axioms of the reals."
  },
  {
   "property": "C84",
   "status": "proved",
   "theorems": [
    "C84_millis_stable"
   ],
   "note": ""
  },
  {
   "property": "C85",
   "status": "partial",
   "theorems": [
    "C85_concurrent_refuted",
    "C85_paced_partial"
   ],
   "note": "False: concurrent refreshes ignore a lost compare-and-swap. Proved part: a refresh that starts after another has recorded its time waits the interval."
  },
  {
   "property": "C86",
   "status": "partial",
   "theorems": [
    "C86_revoked_refuted",
    "C86_refresh_partial"
   ],
   "note": "False: overlapping refreshes can revive a revoked key. Proved part: a refresh that is not interrupted leaves exactly the keys listed."
  },
  {
   "property": "C87",
   "status": "partial",
   "theorems": [
    "C87_listing_refuted",
    "C87_listing_partial"
   ],
   "note": "False: CAPI can page forever. Proved part: if CAPI answers consistently and its pages end or fail, only those pages are requested. Missing: nothing bounds inconsistent answers."
  },
  {
   "property": "C88",
   "status": "partial",
   "theorems": [
    "C88_panic_refuted",
    "C88_no_panic_partial"
   ],
   "note": "False: an RS256 token without a key id panics. Proved part: tokens with an algorithm and, for RS256, a key id."
  },
  {
   "property": "C89",
   "status": "proved",
   "theorems": [
    "C89_decision"
   ],
   "note": ""
  },
  {
   "property": "C90",
   "status": "partial",
   "theorems": [
    "C90_cached",
    "C90_remembered_partial",
    "C90_pruned_refuted"
   ],
   "note": "False: the pruner deletes by token what it saw outdated, and a list fetched in between goes with it (C90_pruned_refuted, where every other goroutine is finished). C90_cached: one goroutine, from any state of the cache. C90_remembered_partial: over whole histories with the pruner and all other goroutines, if no third goroutine asked CAPI about the same token (its entry is what the pruner can have seen, and a later, different answer would replace the list)."
  },
  {
   "property": "C91",
   "status": "partial",
   "theorems": [
    "C91_same_record_refuted",
    "C91_record_partial"
   ],
   "note": "False: spaces and zero bytes make records coincide. Proved part: values without them."
  },
  {
   "property": "C92",
   "status": "partial",
   "theorems": [
    "C92_ipv6_refuted",
    "C92_source_partial"
   ],
   "note": "False: a bare IPv6 address is lost. Proved part: names, IPv4 and bracketed IPv6 addresses."
  },
  {
   "property": "C93",
   "status": "partial",
   "theorems": [
    "C93_bracket_refuted",
    "C93_query_partial"
   ],
   "note": "False with a gateway library that understands query[x]=y. Proved part: every other library, or requests without such a parameter, under the conditions of C49."
  },
  {
   "property": "C94",
   "status": "partial",
   "theorems": [
    "C94_octal_refuted",
    "C94_read_partial",
    "C94_literals"
   ],
   "note": "False: numbers with a leading zero are octal (C94_octal_refuted). C94_literals is exact for all query strings of documented parameters once a number is read as a literal (decimal, octal after 0, hexadecimal after 0x, within 64 bits); C94_read_partial is the decimal reading, for numbers without a superfluous leading zero."
  },
  {
   "property": "C95",
   "status": "partial",
   "theorems": [
    "C95_colon_refuted",
    "C95_carried_partial"
   ],
   "note": "False: a trailing colon is lost, and a colon can be taken as a verb. Proved part: source ids that a path can carry."
  },
  {
   "property": "C96",
   "status": "partial",
   "theorems": [
    "C96_second_field_refuted",
    "C96_fields_partial"
   ],
   "note": "False: a space in the path makes a second field. Proved part: values without spaces, newlines and zero bytes, and a path that begins with a slash."
  },
  {
   "property": "C97",
   "status": "proved",
   "theorems": [
    "C97_instant",
    "C97_range",
    "C97_meta"
   ],
   "note": ""
  },
  {
   "property": "C98",
   "status": "proved",
   "theorems": [
    "C98_exact"
   ],
   "note": "All times that int64 nanoseconds can express, and 400 times more."
  },
  {
   "property": "C99",
   "status": "partial",
   "theorems": [
    "C99_millisecond_refuted",
    "C99_close_partial",
    "C99_millis_partial",
    "C99_seconds_partial"
   ],
   "note": "False: 1500000000.123 is evaluated one millisecond early. Proved part: the error is below 0.505 ms, below 2.1 microseconds for whole milliseconds, and nothing for whole seconds."
  },
  {
   "property": "C100",
   "status": "partial",
   "theorems": [
    "C100_open_refuted",
    "C100_step_refuted",
    "C100_decimal_partial",
    "C100_refused"
   ],
   "note": "False: 9300000000 is accepted as a time, NaN as a time and as a step, with a value the language leaves open; zero and negative steps are accepted. Proved part: decimals up to 9*10^9 seconds, and texts no parser takes."
  },
  {
   "property": "C101",
   "status": "proved",
   "theorems": [
    "C101_instant",
    "C101_range"
   ],
   "note": "The evaluation engine (Prometheus) is any program that calls Select and returns."
  },
  {
   "property": "C102",
   "status": "proved",
   "theorems": [
    "C102_instant",
    "C102_range",
    "C102_authorised",
    "C102_authorised_range",
    "C102_each_once",
    "C102_each_once_range"
   ],
   "note": "The window is in int64 nanoseconds; beyond that the code wraps. That the engine only uses the query's own selectors is a hypothesis of the _authorised theorems."
  },
  {
   "property": "C103",
   "status": "proved",
   "theorems": [
    "C103_instant",
    "C103_range"
   ],
   "note": "Times up to 4*10^15 milliseconds."
  },
  {
   "property": "C104",
   "status": "proved",
   "theorems": [
    "C104_instant",
    "C104_range"
   ],
   "note": ""
  },
  {
   "property": "C105",
   "status": "proved",
   "theorems": [
    "C105_instant",
    "C105_range"
   ],
   "note": "Whether the engine can return a string for an expression is up to Prometheus; the example shows that the process then ends."
  },
  {
   "property": "C106",
   "status": "partial",
   "theorems": [
    "C106_end_refuted",
    "C106_found_partial"
   ],
   "note": "False: an envelope at exactly the end of the window, the evaluated instant, is not found. Proved part: the rest of the window, for stores with distinct times per source and content at least a second old, in both directions."
  },
  {
   "property": "C107",
   "status": "proved",
   "theorems": [
    "C107_authorize",
    "C107_read"
   ],
   "note": "Every interleaving. The reasons are evidence in the history: CAPI's answers, clock readings, published keys."
  },
  {
   "property": "C108",
   "status": "partial",
   "theorems": [
    "C108_bar_refuted",
    "C108_expanded_partial"
   ],
   "note": "False for source ids with a bar, in CAPI's lists or in the query. Proved for all others, for every PromQL parser and printer that agree with each other."
  },
  {
   "property": "C109",
   "status": "proved",
   "theorems": [
    "C109_given",
    "C109_sent"
   ],
   "note": "Loads and stores of the token are taken to be atomic even where the code races (line 105 writes it without the lock)."
  },
  {
   "property": "C110",
   "status": "partial",
   "theorems": [
    "C110_header_refuted",
    "C110_header_partial"
   ],
   "note": "False: the token is read twice under the lock but cleared without it, so a request can go out with an empty header. Proved: otherwise the header is an issued token, and an empty one needs another call's refusal while the call is under way."
  },
  {
   "property": "C111",
   "status": "proved",
   "theorems": [
    "C111_tokens"
   ],
   "note": ""
  },
  {
   "property": "C112",
   "status": "proved",
   "theorems": [
    "C112_given_up"
   ],
   "note": "Tokens obtained, or being obtained, by calls still under way may have been issued before the refusal; and the empty header of C110 is excepted."
  },
  {
   "property": "C113",
   "status": "proved",
   "theorems": [
    "C113_progress",
    "C113_bounded"
   ],
   "note": "That the servers answer is the enabling of each step."
  },
  {
   "property": "C114",
   "status": "proved",
   "theorems": [
    "C114_credentials"
   ],
   "note": ""
  },
  {
   "property": "C115",
   "status": "partial",
   "theorems": [
    "C115_unauthorized_refuted",
    "C115_refused_partial"
   ],
   "note": "False as documented: any status that is not 2xx makes the client forget its token. Proved: nothing else does."
  },
  {
   "property": "C116",
   "status": "proved",
   "theorems": [
    "C116_leader_only",
    "C116_never_leader",
    "C116_no_leader_no_change"
   ],
   "note": "isLeader answers true only to the elected leader; the orchestrator library may issue any call at any time."
  },
  {
   "property": "C117",
   "status": "proved",
   "theorems": [
    "C117_sent_once",
    "C117_sent_prefix"
   ],
   "note": ""
  },
  {
   "property": "C118",
   "status": "proved",
   "theorems": [
    "C118_agreement"
   ],
   "note": ""
  },
  {
   "property": "C119",
   "status": "partial",
   "theorems": [
    "C119_one_leader_refuted",
    "C119_no_overlap_partial"
   ],
   "note": "False: a scheduler that loses the lead while it sends tables goes on sending, and can overwrite its successor's tables on some nodes. Proved: it is enough that publications do not overlap."
  },
  {
   "property": "C120",
   "status": "partial",
   "theorems": [
    "C120_restart_blank",
    "C120_accepted_write_refuted",
    "C120_accepted_write_partial"
   ],
   "note": "False: a node without a table accepts every write and drops it. Proved: at a node whose table gives every source of the batch an owner, every envelope is handed to an owner; and what a restarted node answers until it is sent a table."
  },
  {
   "property": "C121",
   "status": "proved",
   "theorems": [
    "C121_published_listings",
    "C121_listing_true",
    "C121_node_holds",
    "C121_every_hash_owned"
   ],
   "note": "That the library reports what the nodes last answered is a hypothesis: it is not in the repository."
  },
  {
   "property": "C122",
   "status": "proved",
   "theorems": [
    "C122_written"
   ],
   "note": ""
  },
  {
   "property": "C123",
   "status": "partial",
   "theorems": [
    "C123_written",
    "C123_once_refuted",
    "C123_once_partial",
    "C123_tables_fine"
   ],
   "note": "That answers were sent before, for that source, holds without conditions. 'Nothing twice' is false if a table gives a node the same hashes twice, which SetRanges accepts; proved for tables that do not, in particular for assignments without overlapping ranges at one address."
  },
  {
   "property": "C124",
   "status": "partial",
   "theorems": [
    "C124_read_partial"
   ],
   "note": "Composition of C51 and C123, with C51's conditions (false without them, C51_json_name_refuted)."
  },
  {
   "property": "C125",
   "status": "partial",
   "theorems": [
    "C125_instant_partial",
    "C125_range_partial"
   ],
   "note": "Composition of C93 and C102, with C93's conditions (false without them, C93_bracket_refuted). That the engine selects by the selectors of the parsed expression is a hypothesis about the PromQL library."
  },
  {
   "property": "C126",
   "status": "partial",
   "theorems": [
    "C126_read",
    "C126_meta",
    "C126_unversioned_refuted",
    "C126_prerelease_refuted",
    "C126_gateway_partial",
    "C126_gateway_meta_partial"
   ],
   "note": "Which path is asked for holds for every server (C126_read, C126_meta). That data comes back through this repository's gateway is false for a gateway built without a version (the default of cmd/gateway) and for prereleases of 2.0.0; proved for versions 2.0.0 and later, with C47's conditions on options and source ids. JSON and jsonpb are assumed to read back what they wrote. The parser of versions is the library's, transcribed, and proved to accept exactly the published grammar (with numbers of 64 bits)."
  },
  {
   "property": "C127",
   "status": "proved",
   "theorems": [
    "C127_uptime",
    "C127_any_server",
    "C127_uptime_json"
   ],
   "note": ""
  },
  {
   "property": "C128",
   "status": "partial",
   "theorems": [
    "C128_instant",
    "C128_range",
    "C128_reason_refuted",
    "C128_reason_partial",
    "C128_instant_json",
    "C128_range_json",
    "C128_reason_json"
   ],
   "note": "Success and failure are never confused (C128_instant, C128_range). The reason is lost for codes that do not become 400 or 500, for example Unavailable; proved for those that do."
  },
  {
   "property": "C129",
   "status": "partial",
   "theorems": [
    "C129_instant_request",
    "C129_range_request",
    "C129_instant_answer_partial",
    "C129_range_answer_partial",
    "C129_instant_json_partial",
    "C129_range_json_partial"
   ],
   "note": "The requests are the same for all options. The answers: false for results that are not set (C62_unset_refuted), proved for UTF-8 labels, times being written with three decimals."
  },
  {
   "property": "C130",
   "status": "proved",
   "theorems": [
    "C130_answer",
    "C130_nothing_missing"
   ],
   "note": ""
  },
  {
   "property": "C131",
   "status": "proved",
   "theorems": [
    "C131_accounted"
   ],
   "note": ""
  },
  {
   "property": "C132",
   "status": "proved",
   "theorems": [
    "C132_all_readable"
   ],
   "note": ""
  },
  {
   "property": "C133",
   "status": "proved",
   "theorems": [
    "C133_logged_first",
    "C133_file"
   ],
   "note": "Goroutines of Auth/System.v with the access log in front; O_APPEND writes are taken to be atomic. A failing Write may leave any beginning of the record."
  },
  {
   "property": "C134",
   "status": "partial",
   "theorems": [
    "C134_lines_refuted",
    "C134_lines_partial",
    "C134_passed_on"
   ],
   "note": "False in general: a newline in the decoded path (C56) makes one request write seven lines, with a forged record among them. Proved for paths without newlines; and a request that was passed on always has its own line, whatever others send, since no route passed on admits a newline."
  },
  {
   "property": "C135",
   "status": "proved",
   "theorems": [
    "C135_indifferent",
    "C135_failing"
   ],
   "note": ""
  },
  {
   "property": "C136",
   "status": "proved",
   "theorems": [
    "C136_gateway_asked"
   ],
   "note": "net/http/httputil's director is transcribed; headers and the connection are not modelled."
  },
  {
   "property": "C137",
   "status": "partial",
   "theorems": [
    "C137_down_refuted",
    "C137_deadline_partial",
    "C137_deadline_range_partial"
   ],
   "note": "False in general: five failing reads in a row end the walk silently, so a cache that is down is answered as no data, with success and no failure counted. Proved for reads that run out of their five seconds: those fail the query, are counted once, and nothing else but a selector without source id does."
  },
  {
   "property": "C138",
   "status": "partial",
   "theorems": [
    "C138_ticks_partial",
    "C138_logged_refuted"
   ],
   "note": "The last clause is false: the error that is looked at after the tries is another variable than the one the tries set, so nothing is ever logged. The other clauses are proved for every sequence of ticks."
  },
  {
   "property": "C139",
   "status": "partial",
   "theorems": [
    "C139_panic_refuted",
    "C139_report_partial"
   ],
   "note": "False without CfBlackboxEnabled: the client the uptime is asked of is then nil, so the first sample that is measured panics. Proved with it enabled."
  },
  {
   "property": "C140",
   "status": "partial",
   "theorems": [
    "C140_expected_partial",
    "C140_value_partial",
    "C140_error_partial",
    "C140_parts_refuted",
    "C140_short_refuted"
   ],
   "note": "Proved for windows and intervals of whole seconds (up to 2^40 s) with the interval no longer than the window. False otherwise: with 1.5 s and 0.5 s the query asks for 2 s and a complete answer is reported as 4/3; with an interval longer than the window it is infinite."
  },
  {
   "property": "C141",
   "status": "proved",
   "theorems": [
    "C141_nodes",
    "C141_accepts",
    "C141_files"
   ],
   "note": "crypto/tls and crypto/x509 are a small relation with the certificate check as a parameter."
  },
  {
   "property": "C142",
   "status": "partial",
   "theorems": [
    "C142_strangers_refuted",
    "C142_served_partial"
   ],
   "note": "False: the server credentials set neither ClientAuth nor ClientCAs, so a caller without any certificate is served. Proved: what is served is TLS 1.2 or later with one of the suites."
  },
  {
   "property": "C143",
   "status": "partial",
   "theorems": [
    "C143_uaa_partial",
    "C143_capi_partial",
    "C143_gateway_partial",
    "C143_old_refuted",
    "C143_skip"
   ],
   "note": "False for the version between proxy and gateway, which is left to the Go release (TLS 1.0 for those of the time). Proved: the peers are verified, the gateway even with verification switched off; UAA and CAPI over TLS 1.2 or later."
  },
  {
   "property": "C144",
   "status": "partial",
   "theorems": [
    "C144_same_answer_refuted",
    "C144_source_order_refuted",
    "C144_same_answer_partial"
   ],
   "note": "False if two metrics of a gauge have names that are sanitised alike (the value is picked by Go's map order), and if the labels of two sources share a series key (C58). Proved otherwise: equal answers, errors included, for all orders. A map's order is a function of the map within one evaluation."
  },
  {
   "property": "C145",
   "status": "partial",
   "theorems": [
    "C145_outage_refuted",
    "C145_recovered_partial",
    "C145_read_partial"
   ],
   "note": "False: a failed listing is cached as an empty list, overwrites a good one, and after three retries is believed for the cache lifetime without CAPI being asked. Proved: once the lifetime has passed since the failures, refusals rest on a complete list from CAPI."
  },
  {
   "property": "C146",
   "status": "partial",
   "theorems": [
    "C146_counter",
    "C146_growing",
    "C146_timer_refuted",
    "C146_timer_partial"
   ],
   "note": "False of timers whose duration does not fit in int64 (292 years): it wraps to a negative number. All others and all counters are proved. Gauges carry their own double."
  },
  {
   "property": "C147",
   "status": "partial",
   "theorems": [
    "C147_unknown_refuted",
    "C147_types_partial"
   ],
   "note": "False: a name that is no type (a typing error) puts a nil selector into the request instead of failing. Proved when all names are names of types."
  },
  {
   "property": "C148",
   "status": "proved",
   "theorems": [
    "C148_rest"
   ],
   "note": "One caller at a time, as C82; a turn of the loop is one iteration of start(). That the goroutine keeps running is not modelled."
  },
  {
   "property": "C149",
   "status": "partial",
   "theorems": [
    "C149_node",
    "C149_moved_refuted",
    "C149_answer_partial",
    "C149_user_partial"
   ],
   "note": "False after a source has moved: two nodes know it and the entry of the higher numbered one is given, not that of the node which has the source now (C149_moved_refuted). Proved part: each entry describes what some node held at some moment (C149_answer_partial), through the proxy only for sources the user may see (C149_user_partial), for sources whose timestamps at a node are distinct."
  },
  {
   "property": "C150",
   "status": "proved",
   "theorems": [
    "C150_legal",
    "C150_parameters",
    "C150_instant"
   ],
   "note": "The grammar is stated as inductive relations in Base/SpecUrl.v which use no function of the model; net/url is the Go standard library, transcribed in Base/Url.v."
  },
  {
   "property": "C151",
   "status": "partial",
   "theorems": [
    "C151_account",
    "C151_race_refuted",
    "C151_in_turn_partial",
    "C151_one_connection_partial"
   ],
   "note": "Accounting, meaning of the envelopes and absence of inventions for every interleaving (C151_account). The general form is false (C151_race_refuted): two connections that hand over a message at the same time are both counted while one message is lost uncounted, because the buffer supports one writer. C151_in_turn_partial: complete accounting when no two connections hand over at the same time, in particular with one connection."
  },
  {
   "property": "C152",
   "status": "partial",
   "theorems": [
    "C152_busy_refuted",
    "C152_idle_partial",
    "C152_closed"
   ],
   "note": "The general form is false (C152_busy_refuted): the deadline moves only when a message is complete, so that a message that takes longer than the timeout is cut however steadily it arrives. Proved: closed for idleness only after the whole timeout without a completed message (C152_idle_partial), and then it is closed (C152_closed)."
  },
  {
   "property": "C153",
   "status": "partial",
   "theorems": [
    "C153_accept_refuted",
    "C153_serving_partial"
   ],
   "note": "The general form is false (C153_accept_refuted): after one failing Accept no connection is ever accepted again while the process stays up. C153_serving_partial: until then, and until a message crashes the process (C66), connections are accepted and messages handled whatever the others do."
  },
  {
   "property": "C154",
   "status": "partial",
   "theorems": [
    "C154_misplaced",
    "C154_cluster_refuted",
    "C154_readable_partial"
   ],
   "note": "The general form is false: the server's requests are marked LocalOnly, so a node that does not have the source keeps them, and no reader finds them: C154_misplaced for every run, C154_cluster_refuted for a concrete one. C154_readable_partial: everything received can be read if the server was given the address of the node that has the source."
  },
  {
   "property": "C155",
   "status": "proved",
   "theorems": [
    "C155_read",
    "C155_meta",
    "C155_meta_styles",
    "C155_envelope_names"
   ],
   "note": "encoding/json, base64 and jsonpb are transcribed (Json/Text.v, Json/Pb.v); strconv's text of a double is a parameter that must give the double back (exact_floats). NaNs other than Go's are not told apart over HTTP, and what is not UTF-8 cannot be in a protobuf string."
  },
  {
   "property": "C156",
   "status": "partial",
   "theorems": [
    "C156_unknown_refuted",
    "C156_unknown_inside_refuted",
    "C156_known_partial"
   ],
   "note": "False: the client does not set AllowUnknownFields, so one unknown field, at the top or in an envelope, makes Read fail (C156_unknown_refuted, C156_unknown_inside_refuted). C156_known_partial: both names of a known field are taken, and what follows the document is ignored."
  },
  {
   "property": "C157",
   "status": "partial",
   "theorems": [
    "C157_ingress",
    "C157_balance",
    "C157_egress",
    "C157_size_refuted",
    "C157_size_partial"
   ],
   "note": "The counters are exact (C157_ingress, C157_balance, C157_egress). The size gauge is not: the counter is read and the gauge set in two steps, so of two writes at the same time the earlier number may be set last, and it stays wrong until the next write or pruning (C157_size_refuted). C157_size_partial: exact at rest when no other change of the number falls between reading and setting, and always a number that was once right. Numbers are integers in the model (float64 in the code: the same below 2^53)."
  },
  {
   "property": "C158",
   "status": "proved",
   "theorems": [
    "C158_stranger",
    "C158_alike",
    "C158_hidden",
    "C158_status"
   ],
   "note": "C158_stranger, C158_alike, C158_hidden and C158_status, for requests whose path is clean (others are redirected) and not the info page."
  },
  {
   "property": "C159",
   "status": "proved",
   "theorems": [
    "C159_gateway"
   ],
   "note": "C159_gateway: what the gateway answers, with grpc-gateway's status table transcribed and compared with the documented one. A redirected (unclean) path is not described further."
  },
  {
   "property": "C160",
   "status": "proved",
   "theorems": [
    "C160_read",
    "C160_base64",
    "C160_base64_one",
    "C160_special"
   ],
   "note": "C160_read, with the base 64 text of RFC 4648 (C160_base64, one text only: C160_base64_one)."
  },
  {
   "property": "C161",
   "status": "partial",
   "theorems": [
    "C161_gateway_refuted",
    "C161_proxy_partial",
    "C161_gateway_partial"
   ],
   "note": "False of the gateway: it writes oldest_timestamp and newest_timestamp, and zeros (C161_gateway_refuted, C161_gateway_partial). Through the proxy the names are the documented ones; numbers that are zero, and meta itself if there is no source, are left out (C161_proxy_partial)."
  },
  {
   "property": "C162",
   "status": "proved",
   "theorems": [
    "C162_start",
    "C162_outage",
    "C162_throttled",
    "C162_bad_key"
   ],
   "note": "For a refresh that is not interrupted by another one, as at the start; interleaved refreshes are C85 and C86."
  },
  {
   "property": "C163",
   "status": "proved",
   "theorems": [
    "C163_send",
    "C163_read",
    "C163_read_response",
    "C163_meta",
    "C163_meta_response",
    "C163_table",
    "C163_ranges",
    "C163_range",
    "C163_queries",
    "C163_refused"
   ],
   "note": "The codec is golang/protobuf's (v1.3), transcribed; gRPC's framing is not modelled. Messages of 2^63 bytes and more are left out."
  },
  {
   "property": "C164",
   "status": "proved",
   "theorems": [
    "C164_format_read",
    "C164_format_write",
    "C164_format_short",
    "C164_order",
    "C164_unknown",
    "C164_mistyped",
    "C164_map_order",
    "C164_envelope_numbers",
    "C164_request_numbers"
   ],
   "note": "C164_format_read and C164_format_write: reader and writer are those of the documented wire format (Wire/SpecFormat.v). Groups, which proto3 does not have, are not skipped but refused in the model."
  },
  {
   "property": "C165",
   "status": "proved",
   "theorems": [
    "C165_forward",
    "C165_serve"
   ],
   "note": "DeprecatedTags values other than texts are not modelled."
  },
  {
   "property": "C166",
   "status": "proved",
   "theorems": [
    "C166_instant",
    "C166_range",
    "C166_any",
    "C166_refused",
    "C166_shown",
    "C166_shown_range",
    "C166_order",
    "C166_numbers"
   ],
   "note": "Doubles travel as their 64 bits; that Float64frombits undoes Float64bits is a hypothesis (float_bits), with all NaNs being one value as in Marshaler/Model.v. An empty label map arrives as nil, which holds the same."
  },
  {
   "property": "C167",
   "status": "partial",
   "theorems": [
    "C167_crash_refuted",
    "C167_safe_partial",
    "C167_read",
    "C167_not_utf8",
    "C167_meta",
    "C167_instant",
    "C167_range"
   ],
   "note": "False as to crashing: grpcRead dereferences resp.Envelopes, so a peer that answers a read with the empty message - legal - panics the caller (C167_crash_refuted). C167_safe_partial: exactly then, and no other call ever. Log-cache nodes always set it: C167_read, C167_meta, C167_instant and C167_range give the exact result. grpc-go itself (deadlines, reconnecting) is not modelled: any failure is an error."
  },
  {
   "property": "C168",
   "status": "partial",
   "theorems": [
    "C168_crash_refuted",
    "C168_up_partial",
    "C168_garbage",
    "C168_elsewhere",
    "C168_answer",
    "C168_exact",
    "C168_meta",
    "C168_cluster"
   ],
   "note": "False as to staying up (C168_crash_refuted): the empty message, sent to Ingress.Send, dereferences r.Envelopes and takes the node down in any state; a read naming an envelope type outside the enum panics the store. C168_up_partial: nothing else does, as long as envelopes are not crowded (C04, C16). C168_garbage, C168_elsewhere, C168_answer, C168_exact, C168_meta, C168_cluster are the positive parts. The node stands alone (all its sources are its own or refused); for clusters only encodability of answers (C168_cluster) on top of C122-C126. The proxy's Meta cache is left to C27/C28's model."
  },
  {
   "property": "C169",
   "status": "proved",
   "theorems": [
    "C169_keys",
    "C169_claims",
    "C169_claims_close",
    "C169_page",
    "C169_scope_origin",
    "C169_guid_origin",
    "C169_key_origin",
    "C169_kinds",
    "C169_read"
   ],
   "note": "encoding/json is transcribed (names up to case, with the sign of Kelvin and the long s; null leaves a value; members that are there twice; arrays reused); signatures (jose, RSA, PEM) stay abstract. int64 of a float that does not fit is amd64's. Reading the text: Json/Text.v, C156 and C170. A missing guid or scope is the empty text (listed_text)."
  },
  {
   "property": "C170",
   "status": "proved",
   "theorems": [
    "C170_read",
    "C170_one",
    "C170_refused",
    "C170_first",
    "C170_begins",
    "C170_written"
   ],
   "note": "The reader of Json/Text.v (encoding/json, transcribed from its published source) against a grammar written as inductive relations in Json/SpecGrammar.v: UTF-8 by the code point the bytes give, strings by what is spelled and what it means, values by the rules of RFC 8259. Both directions, by induction on the fuel (sound) and on the derivation (complete). The limit of 10000 nested values in encoding/json is left out."
  },
  {
   "property": "C171",
   "status": "proved",
   "theorems": [
    "C171_duration",
    "C171_duration_one",
    "C171_fraction",
    "C171_starts",
    "C171_defaults",
    "C171_loaded",
    "C171_missing",
    "C171_invalid",
    "C171_required",
    "C171_node",
    "C171_scheduler",
    "C171_addresses"
   ],
   "note": "go-envstruct is not in the repository; it is modelled from its documentation (a field is read from its variable, `required` fields must have one, lists are split at commas and trimmed). What a text says is given by relations in Setup/Spec.v (signed_numeral, listed, trimmed), not by the reader. C171_loaded and the others hold for any reading of durations; C171_duration says what time.ParseDuration, written out in Setup/Duration.v, takes for durations without fractions, and C171_fraction what it makes of those with up to eighteen digits after a point, whatever the rounding (a parameter). TrimSpace outside ASCII is left out."
  },
  {
   "property": "C172",
   "status": "partial",
   "theorems": [
    "C172_wired_partial",
    "C172_stays_partial",
    "C172_settles_partial",
    "C172_read_your_writes_partial",
    "C172_outside",
    "C172_circulates_refuted",
    "C172_swapped_refuted",
    "C172_dial_refuted",
    "C172_zero_refuted",
    "C172_count_refuted"
   ],
   "note": "Refuted: nothing checks NODE_INDEX against NODE_ADDRS. A node whose index is no position in its list never stores or answers anything in any history (C172_outside, for all settings); with a table that names it, what it accepts goes round from it to itself for ever and a read never ends (C172_circulates_refuted); two nodes with exchanged indices lose what is written (C172_swapped_refuted); a peer that cannot be dialled shifts the clients of all later ones, so the node calls the wrong client or panics (C172_dial_refuted); a limit or a count of 0 is accepted and panics (C172_zero_refuted, C172_count_refuted). Proved for nodes that are given the same addresses and each its position: they are wired as the addresses say, stay so in every history, settle after one message per other owner, and what is written through one is read through any other. Messages between nodes are one per call; batching between nodes is in Nozzle/ and Whole/."
  },
  {
   "property": "C173",
   "status": "partial",
   "theorems": [
    "C173_frame",
    "C173_call",
    "C173_history",
    "C173_read_refuted",
    "C173_batch_refuted",
    "C173_walk_refuted",
    "C173_meta",
    "C173_meta_refuted",
    "C173_fits",
    "C173_batch",
    "C173_node_partial"
   ],
   "note": "General form refuted: two logs of 3 MB of one source, each accepted, make every read of both fail (C173_read_refuted) and a retrying walk read for ever (C173_walk_refuted); in one batch they are refused (C173_batch_refuted); Meta fails when the ids exceed 4 MiB (C173_meta, C173_meta_refuted). Proved: frames and the limit exactly (C173_frame, C173_call, C173_history), answers of n envelopes of k bytes with n(k+11)+11 at most 4 MiB arrive (C173_fits), what fitted in a Send fits in an answer (C173_batch), and such nodes answer exactly (C173_node_partial). HTTP/2 below the frames is not modelled; no compression, as /repo sets none."
  },
  {
   "property": "C174",
   "status": "proved",
   "theorems": [
    "C174_crc",
    "C174_owned",
    "C174_known",
    "C174_near",
    "C174_reached",
    "C174_share",
    "C174_shared"
   ],
   "note": "hash/crc64 is transcribed from the standard library (its tables, byte by byte); C174_crc compares it with the shift register of the standard. C174_reached says the map on eight-byte continuations is a bijection. Nothing is claimed about the spread of other families of ids, such as GUIDs."
  },
  {
   "property": "C175",
   "status": "proved",
   "theorems": [
    "C175_target",
    "C175_place",
    "C175_gateway",
    "C175_forwarded"
   ],
   "note": "The path cleaning of net/http (and, identically, gorilla/mux) over all strings, with no bound; the theorem fixes the target by what paths name, not by an algorithm. C175_forwarded takes as hypothesis that the proxy's router cleans the request's path the way the gateway's does (the two library functions are the same code)."
  },
  {
   "property": "C176",
   "status": "proved",
   "theorems": [
    "C176_issued",
    "C176_signed",
    "C176_read",
    "C176_respelled",
    "C176_panic"
   ],
   "note": "jose2go's compact parsing, base64url reading, header map and choice of verifier are written out (from its published source); RSA verification is a parameter, so 'signed' means that RS256 verification under the key succeeds. C176_read composes this with the JSON documents of C169 and the proxy's schedules."
  },
  {
   "property": "C177",
   "status": "partial",
   "theorems": [
    "C177_delivered",
    "C177_exactly",
    "C177_pieces",
    "C177_ends",
    "C177_each_refuted",
    "C177_silent",
    "C177_server"
   ],
   "note": "The octet counting reader is github.com/influxdata/go-syslog's, whose source is not in /repo: it is modelled as published, with the size of its buffer and the RFC 5424 parser as parameters. C177_delivered, C177_exactly and C177_pieces are the positive part: frames of readable messages are handed on in order, at once, and nothing else is; cutting the bytes differently changes nothing. C177_each_refuted: a malformed message costs all that follow on the connection; C177_ends says exactly which inputs do that (an unreadable message, one longer than the buffer, a stray byte such as a newline). C177_silent: an empty connection counts as an invalid message, a zero byte ends it silently. C177_server composes this with C65's conversion."
  },
  {
   "property": "C178",
   "status": "proved",
   "theorems": [
    "C178_passes",
    "C178_pass"
   ],
   "note": "The heap is a function of the store in the model (what is not envelopes, plus a weight per envelope): the garbage collector has run and nothing is written between passes. Sizes within which binary64 is exact enough, as in C83. Rests on the standard library's real numbers."
  },
  {
   "property": "C179",
   "status": "partial",
   "theorems": [
    "C179_time",
    "C179_calendar",
    "C179_time_exact",
    "C179_taken_refuted",
    "C179_leap_refuted",
    "C179_step_partial",
    "C179_step_exact",
    "C179_step_refuted"
   ],
   "note": "Proved for every text of RFC 3339 without leap seconds, small letters or more than nine digits of a second (C179_time), with the calendar given as day following day (C179_calendar); exactly which texts are accepted is C179_time_exact and C179_step_exact. Refuted in general: leap seconds, small letters and longer fractions are refused (C179_leap_refuted), hours of one digit and impossible zones are accepted (C179_taken_refuted), and steps beyond 292 years wrap round, so that 300y is negative (C179_step_refuted); C179_step_partial says a step is right exactly when it fits. The parsers are the libraries' (Go 1.12, prometheus/common of 2018), transcribed; numbers are C100."
  },
  {
   "property": "C180",
   "status": "partial",
   "theorems": [
    "C180_garbage",
    "C180_nothing_refuted",
    "C180_nil_refuted",
    "C180_down",
    "C180_up_partial",
    "C180_listed_partial",
    "C180_torn_refuted",
    "C180_drawn",
    "C180_routes",
    "C180_scheduler"
   ],
   "note": "The general form (a node goes on serving whatever it is sent, and ListRanges answers with a list the node had) is refuted three times: an AddRange of no bytes makes every later ListRanges fail and the first RemoveRange crash; a table entry without a value crashes (protobuf before 1.4); a RemoveRange between handler and encoder gives a list that never was. C180_down says exactly which requests crash, C180_drawn what holds of every answer. The byte formats are those of C164."
  },
  {
   "property": "C181",
   "status": "partial",
   "theorems": [
    "C181_grammar",
    "C181_server",
    "C181_log",
    "C181_metric",
    "C181_limits",
    "C181_names_refuted",
    "C181_nanos_refuted",
    "C181_years_refuted",
    "C181_crash_refuted",
    "C181_alive_partial"
   ],
   "note": "The parser is github.com/influxdata/go-syslog's, whose source is not in /repo: it is modelled as published in 2018, without best-effort mode. C181_grammar says that it accepts exactly the texts of the grammar in Syslog/SpecMessage.v, with what they say; C181_server, C181_log and C181_metric carry lines from bytes to envelopes. The general form is refuted four times: an application name of more than 48 characters and a time given to the nanosecond are refused (C181_limits says what every accepted line is limited to), a time after 2262 becomes another, and a line without time, application, process id or text ends the process (C181_alive_partial: exactly such lines do)."
  },
  {
   "property": "C182",
   "status": "proved",
   "theorems": [
    "C182_read",
    "C182_all",
    "C182_log"
   ],
   "note": "C182_read (any options), C182_all (no options, up to a hundred messages) and C182_log (one line) compose C181 (syslog), C163 (protobuf), C173 (gRPC frames), C165 (node) and C155 (gateway and client). Conditions: the source's times differ, at most as many messages as a source may hold, no truncation (C22 and C165 say what that may take), one node that has the source, strconv.ParseFloat gives Go's NaN only, strconv's shortest floats read back. Connections are assumed to carry what is written to them or to fail. That a syslog message with two structured elements is turned into one of them is C81's subject and excluded here."
  },
  {
   "property": "C183",
   "status": "proved",
   "theorems": [
    "C183_refines",
    "C183_answer",
    "C183_owner",
    "C183_all",
    "C183_served"
   ],
   "note": "C183_refines: a run of the byte cluster (Wire/Cluster.v) is a run of the message cluster of C123/C130-C132 with the same nodes and the same envelopes under way; C183_answer, C183_owner, C183_all are about the bytes a client gets, with reads going hop by hop among everything else; C183_served shows that the answers exist. Conditions of C183_all as in C132 (distinct times, no more than a source may hold, nothing lost, no truncation of the owner). Simplifications: fields a message has that the schema does not know are dropped instead of passed on; a node asked by a caller that gave up is not followed; a batch that fails is its envelopes lost one by one."
  },
  {
   "property": "C184",
   "status": "proved",
   "theorems": [
    "C184_read",
    "C184_all",
    "C184_log",
    "C184_reaches"
   ],
   "note": "C184_read (any options), C184_all (no options) and C184_log (one syslog line) compose C181 and C155 with C183's byte cluster: C182 with a cluster for the one node. C184_reaches: the answer the theorems allow is one that a history gives. Conditions: as C183_all (distinct times, no more than a source may hold, nothing lost or on its way, no truncation or restart of the owner), and while the read is under way the node asked and the owner keep their tables and nothing of the source is sent. Errors are not excluded: a call may always fail."
  },
  {
   "property": "C185",
   "status": "proved",
   "theorems": [
    "C185_back",
    "C185_nearest",
    "C185_negative",
    "C185_shortest",
    "C185_sign",
    "C185_http",
    "C185_shape"
   ],
   "note": "C185_back, C185_nearest, C185_negative, C185_shortest and C185_sign are about encoding/json's floats and strconv written out (Float/Model.v); these are Go's and not in /repo, and are transcribed by what they compute, without strconv's fast paths (which have to give the same result). C185_http and C185_shape are C155_read and C160_read with them, so without the assumption about strconv (exact_floats) that those make; C182 and C184 can be read with go_floats in the same way, as C185_back is that assumption."
  },
  {
   "property": "C186",
   "status": "proved",
   "theorems": [
    "C186_value",
    "C186_shortest",
    "C186_time",
    "C186_stable",
    "C186_parse",
    "C186_round_trip",
    "C186_instant",
    "C186_range"
   ],
   "note": "C186_shortest is C185_shortest for this notation. strconv.ParseFloat, FormatFloat(_, 'f', -1, 64) and fmt's %.3f are written out in Float/Parse.v (Go's, not in /repo; without hexadecimal numbers and underscores), so that C186_round_trip, C186_instant and C186_range are C62 and C129 with none of the assumptions about the library (exact_short, stable3, go_lib) that those make. C186_stable is C84 for this program, on integers, without the axioms of the reals. What C62 refutes in general (results with no member set) is outside this property's statement."
  },
  {
   "property": "C187",
   "status": "partial",
   "theorems": [
    "C187_document_partial",
    "C187_result_partial",
    "C187_value_partial",
    "C187_gauge_partial",
    "C187_words",
    "C187_reads",
    "C187_sixteen_refuted",
    "C187_tiny_refuted"
   ],
   "note": "C187_gauge_partial is C181_metric with strconv.ParseFloat written out (Float/Gauge.v over Float/Parse.v), for gauges whose value is a decimal of up to fifteen digits, in range; C187_document_partial and C187_result_partial are the same for JSON numbers and for values of query results. C187_sixteen_refuted and C187_tiny_refuted: with sixteen digits (2^53 + 1) or under 2^-1022 the number can change, so the general form is false and the limits are where they must be. C187_words: infinities and NaN, spelled in capitals or small letters, are read as such. C187_reads: exactly which texts have a value, and which (without hexadecimal numbers and underscores, which Float/Parse.v leaves out)."
  },
  {
   "property": "C188",
   "status": "proved",
   "theorems": [
    "C188_metric",
    "C188_gauge"
   ],
   "note": "C184 for lines with structured data instead of text, with strconv written out on both ends (Float/Gauge.v, Float/Model.v), so that nothing is assumed of ParseFloat, AppendFloat or the JSON codec. Closed under the global context. C188_case has such a line, cluster, gateway and client."
  },
  {
   "property": "C189",
   "status": "partial",
   "theorems": [
    "C189_page_partial",
    "C189_uptime_partial",
    "C189_page_refuted",
    "C189_control_refuted",
    "C189_uptime_refuted"
   ],
   "note": "C189_page_refuted, C189_control_refuted and C189_uptime_refuted: handleInfoEndpoint puts the version between quotes with fmt.Sprintf; a quote, a line break, or a whole member in it changes the document. C189_page_partial and C189_uptime_partial have the hypothesis that excludes these characters, and no other than UTF-8 (C126 and C127 ask for printable ASCII)."
  },
  {
   "property": "C190",
   "status": "proved",
   "theorems": [
    "C190_server",
    "C190_metric",
    "C190_gauge"
   ],
   "note": "C190_server is C181_server with refused messages among the others; C190_metric says for every metric line which of the two it is; C190_gauge has strconv.ParseFloat written out (Float/Gauge.v; hexadecimal numbers, which Go reads from 1.13 on, are errors there)."
  }
 ]
}