# Formal model of cloudfoundry/log-cache in Rocq

## 1. Layout

`rocq/theories/` (logical name `Verif`):

* `Base/`: machine integers, envelopes, decimal numbers, strings, URL queries.
* `<Area>/Model.v` (and `Avl.v`, `GoHeap.v`, `System.v`, `Walk.v`): the Go code, function by function. Each definition
  cites the file and lines it models and says where it simplifies. No proofs.
* `<Area>/Spec.v`: the small vocabulary the property statements use. It does not call the model's helpers.
* Other files of an area: lemmas.
* `Props/*.v`: the property theorems, each closed by a lemma, with `Print Assumptions` beneath and an `Example` beside
  it which shows that the hypotheses are met by a concrete, non-trivial case.

A property that is false of the code stays in `properties.jsonl` in its full form. A theorem with suffix `_refuted`
gives a reachable counterexample in the model, and a theorem with suffix `_partial` proves what remains. Its status in
`MANIFEST.json` is `partial`, and the note there says what is missing. A refutation says that the model, which
transcribes the code, breaks the property. The code was not run to confirm it.

## 2. Plan per property

| id | property | what is modelled | how it is proved | status and theorems |
|---|---|---|---|---|
| C01 | Per-source capacity is never exceeded | Store/Model, Avl, GoHeap | inductive invariant over all histories of operations; the tree refines a sorted list | proved: `C01_capacity` |
| C02 | Sources are isolated | Store/Model, Avl, GoHeap | inductive invariant over all histories of operations; the tree refines a sorted list | proved: `C02_isolation` |
| C03 | A write stores exactly the written envelope and evicts at most the oldest one | Store/Model, Avl, GoHeap | inductive invariant over all histories of operations; the tree refines a sorted list | proved: `C03_put` |
| C04 | A write never destroys another stored envelope (general form) | Store/Model, Avl, GoHeap | general form refuted by a computed history; what remains is proved separately | partial: `C04_write_destroys_refuted`, `C03_put` |
| C05 | Get is sound | Store/Model, Avl, GoHeap | structural induction over every tree shape; relates the pruned traversals with their limit to filtering the stored list | proved: `C05_get_sound` |
| C06 | Get is exact when timestamps are distinct | Store/Model, Avl, GoHeap | structural induction over every tree shape; relates the pruned traversals with their limit to filtering the stored list | proved: `C06_get_exact` |
| C07 | Get returns an ordered prefix when storage order follows time order | Store/Model, Avl, GoHeap | structural induction over every tree shape; relates the pruned traversals with their limit to filtering the stored list | proved: `C07_get_prefix` |
| C08 | Get returns every match (general form) | Store/Model, Avl, GoHeap | refuted by computed histories; positive forms are C05-C07 | partial: `C08_get_misses_refuted`, `C05_get_sound`, `C06_get_exact`, `C07_get_prefix` |
| C09 | The limit never splits a group of equal timestamps (general form) | Store/Model, Avl, GoHeap | refuted by computed histories; positive forms are C05-C07 | partial: `C09_limit_splits_group_refuted`, `C07_get_prefix` |
| C10 | The name filter keeps matching metrics only | Store/Model, Avl, GoHeap | structural induction over every tree shape; relates the pruned traversals with their limit to filtering the stored list | proved: `C10_name_filter_sound`, `C10_name_filter_exact` |
| C11 | Truncation removes exactly the requested number of globally oldest envelopes | Store/Model, Avl, GoHeap | heap order invariant and loop invariant; states a split of the stored multiset | proved: `C11_truncation` |
| C12 | The reported store size is the number of stored envelopes | Store/Model, Avl, GoHeap | inductive invariant over all histories of operations; the tree refines a sorted list | proved: `C12_size_exact` |
| C13 | The reported store size is exact (general form) | Store/Model, Avl, GoHeap | general form refuted by a computed history; what remains is proved separately | partial: `C13_size_drifts_refuted`, `C12_size_exact` |
| C14 | Meta accounting | Store/Model, Avl, GoHeap | inductive invariant over all histories of operations; the tree refines a sorted list | proved: `C14_meta` |
| C15 | The store never panics in single-threaded use | Store/Model, Avl, GoHeap | inductive invariant over all histories of operations; the tree refines a sorted list | proved: `C15_no_panic` |
| C16 | The store never panics in single-threaded use (general form) | Store/Model, Avl, GoHeap | general form refuted by a computed history; what remains is proved separately | partial: `C16_truncate_panics_refuted`, `C16_zero_limit_panics_refuted`, `C16_unknown_type_panics_refuted`, `C15_no_panic` |
| C17 | The cache-period clock tracks the oldest stored envelope (general form) | Store/Model, Avl, GoHeap | general form refuted by a computed history; what remains is proved separately | partial: `C17_clock_skips_oldest_refuted`, `C17_clock_is_some_oldest_partial` |
| C18 | Conservation over a history | Store/Model, Avl, GoHeap | inductive invariant over all histories of operations; the tree refines a sorted list | proved: `C18_conservation` |
| C19 | The per-source index is a balanced ordered map | Store/Avl | AVL invariant, in-order refinement, Fibonacci bound on the height | proved: `C19_index` |
| C20 | Capacity holds under every interleaving | StoreConc/Model: small-step machine, threads, storages by address, index map, locks | invariants over all schedules; explicit schedules for the refutations; for orderly schedules an invariant ties the truncation's heap to the index; C24/C76 by a simulation with the sequential store | proved: `C20_capacity_concurrent` |
| C21 | Without memory pressure no acknowledged write is lost and nothing panics | StoreConc/Model: small-step machine, threads, storages by address, index map, locks | invariants over all schedules; explicit schedules for the refutations; for orderly schedules an invariant ties the truncation's heap to the index; C24/C76 by a simulation with the sequential store | proved: `C21_no_panic_without_truncation`, `C21_no_write_lost`, `C21_count_exact`, `C21_all_visible` |
| C22 | No acknowledged write is lost (with truncation, general form) | StoreConc/SpecStays.v: a source that stays known | StoreConc/ProofsBooks.v: invariant over every schedule: all calls that refer to the source use its one storage, and its content plus its expired count account for the Puts that returned | partial: `C22_write_lost_refuted`, `C22_conservation_partial`, `C22_no_loss_orderly_partial`, `C22_no_loss_stays_partial`, `C22_count_orderly_partial` |
| C23 | No panic under concurrency (general form) | StoreConc/Model: small-step machine, threads, storages by address, index map, locks | invariants over all schedules; explicit schedules for the refutations; for orderly schedules an invariant ties the truncation's heap to the index; C24/C76 by a simulation with the sequential store | partial: `C23_new_storage_refuted`, `C23_runs_dry_refuted`, `C23_meta_race_refuted`, `C23_no_panic_partial`, `C23_no_panic_orderly_partial` |
| C24 | Get is atomic per source | StoreConc/Model: small-step machine, threads, storages by address, index map, locks | invariants over all schedules; explicit schedules for the refutations; for orderly schedules an invariant ties the truncation's heap to the index; C24/C76 by a simulation with the sequential store | proved: `C24_get_atomic` |
| C25 | Prune quantity is bounded | Prune/Model on Flocq binary64 | monotonicity and error bounds of rounding | partial: `C25_no_total_refuted`, `C25_bound_refuted`, `C25_zero_refuted`, `C25_bounded_partial`, `C25_zero_partial` |
| C26 | Read request validation | Routing/Model (local store reader) | case analysis | proved: `C26_read_validation` |
| C27 | Type filter ANY | Routing/Model (local store reader) | case analysis | proved: `C27_type_filter`, `C27_type_filter_exact` |
| C28 | The scheduler's ranges partition the hash space | Routing/Model (scheduler, static lookup) | induction on the number of ranges, 64-bit arithmetic | proved: `C28_partition` |
| C29 | The scheduler's ranges partition the hash space (any count) | Routing/Model (scheduler, static lookup) | induction on the number of ranges, 64-bit arithmetic | partial: `C29_any_count_refuted`, `C29_zero_count_panics_refuted`, `C28_partition` |
| C30 | Routing lookup is exact | Routing/Model (routing table; map order is a parameter) | list reasoning for every iteration order | proved: `C30_lookup_exact` |
| C31 | Setting ranges replaces the table | Routing/Model (routing table; map order is a parameter) | list reasoning for every iteration order | proved: `C31_last_request_decides` |
| C32 | Ranges of unknown nodes are not routed to a known node (general form) | Routing/Model (routing table; map order is a parameter) | list reasoning for every iteration order | partial: `C32_unknown_addr_routed_refuted`, `C32_other_nodes_partial` |
| C33 | Ingress distribution | Routing/Model (proxies, cluster of nodes) | induction over batches and lookups; composition over nodes; refutations by explicit clusters | proved: `C33_ingress_distribution`, `C33_local_only` |
| C34 | Egress read routing | Routing/Model (proxies, cluster of nodes) | induction over batches and lookups; composition over nodes; refutations by explicit clusters | proved: `C34_read_routing` |
| C35 | Cluster read-your-writes | Routing/Model (proxies, cluster of nodes) | induction over batches and lookups; composition over nodes; refutations by explicit clusters | proved: `C35_read_your_writes` |
| C36 | Reads terminate when tables disagree (general form) | Routing/SpecEndless.v: the nodes a read passes through, and when that never ends | C36_exact: reads can circulate exactly when, from the first node on, nodes can pass them on without an end, none naming itself; otherwise every read is answered after fewer hops than there are nodes (pigeonhole on walks) | partial: `C36_read_forwarded_forever_refuted`, `C36_mutual_partial`, `C36_exact` |
| C37 | Meta aggregation | Routing/Model (proxies, cluster of nodes) | induction over batches and lookups; composition over nodes; refutations by explicit clusters | proved: `C37_meta_aggregation` |
| C38 | Meta cache freshness | Routing/Model (proxies, cluster of nodes) | induction over batches and lookups; composition over nodes; refutations by explicit clusters | proved: `C38_meta_cache_fresh` |
| C39 | Orchestrator range set | Routing/Model (orchestrator with the slice's backing array) | refinement of the aliased array to a list | proved: `C39_orchestrator_ranges` |
| C40 | ListRanges answers are snapshots (general form) | Routing/Model (orchestrator with the slice's backing array) | refinement of the aliased array to a list | partial: `C40_answer_changes_refuted`, `C40_stable_under_additions_partial` |
| C41 | Static ranges cover the hash space | Routing/Model (scheduler, static lookup) | induction on the number of ranges, 64-bit arithmetic | proved: `C41_static_cover` |
| C42 | Walk delivers everything once and in order | Client/Walk over an arbitrary reader | induction on pages; composition with the store model | proved: `C42_walk_once_in_order`, `C42_walk_complete`, `C42_walk_store` |
| C43 | Walk stays inside its window | Client/Walk over an arbitrary reader | induction on pages; composition with the store model | proved: `C43_walk_window`, `C43_any_reader` |
| C44 | Walk loses nothing on the store (general form) | Client/Walk over an arbitrary reader | induction on pages; composition with the store model | partial: `C44_walk_loses_refuted`, `C42_walk_store` |
| C45 | Walk back-off bounds | Client/Walk over an arbitrary reader | induction on pages; composition with the store model | proved: `C45_retry_bound`, `C45_retry_on_error_bound`, `C45_always_done` |
| C46 | Window moves contiguously | Client/Walk (window) | induction on the number of windows | proved: `C46_windows`, `C46_window_contents` |
| C47 | Client options reach the server unchanged | Gateway/Model: net/http path, grpc-gateway routing and query decoding, with the library's version-dependent choices as parameters | parse/print round trips; composition with the proxy of Auth/ | partial: `C47_unknown_refuted`, `C47_options_partial` |
| C48 | Read authorisation | Auth/Model, System: programs over an external world, interleaved | invariants over the log of external actions in every interleaving | proved: `C48_read`, `C48_routes` |
| C49 | Query authorisation | Auth/Model, System: programs over an external world, interleaved | invariants over the log of external actions in every interleaving | partial: `C49_bar_refuted`, `C49_query_partial` |
| C50 | Meta authorisation | Auth/Model, System: programs over an external world, interleaved | invariants over the log of external actions in every interleaving | proved: `C50_meta` |
| C51 | The source id checked is the source id read (general form) | Gateway/Model: net/http path, grpc-gateway routing and query decoding, with the library's version-dependent choices as parameters | parse/print round trips; composition with the proxy of Auth/ | partial: `C51_json_name_refuted`, `C51_source_partial`, `C51_hidden_field_refuted` |
| C52 | Authorisation cache soundness | Auth/Model, System: programs over an external world, interleaved | invariants over the log of external actions in every interleaving | partial: `C52_age_refuted`, `C52_cache_partial` |
| C53 | CAPI paging is complete and confined | Auth/Model, System: programs over an external world, interleaved | invariants over the log of external actions in every interleaving | proved: `C53_pages`, `C53_confined` |
| C54 | Token acceptance | Auth/Model, System: programs over an external world, interleaved | invariants over the log of external actions in every interleaving | proved: `C54_token` |
| C55 | Key refresh is throttled | Auth/Model, System | trace reasoning; explicit interleavings for the refutations | proved: `C55_throttle` |
| C56 | Access log records are single lines (general form) | AccessLog/Model: the record's template with html/template's escaper | induction over bytes; unique readability of the record | partial: `C56_forged_refuted`, `C56_one_line_partial` |
| C57 | Metric names are sanitised to valid identifiers | Promql/Model | induction over strings, samples and expressions | proved: `C57_identifier`, `C57_idempotent`, `C57_characters` |
| C58 | Every selected sample lands in the series of its labels | Promql/Model | induction over strings, samples and expressions | partial: `C58_conservation`, `C58_collision_refuted`, `C58_grouping_partial` |
| C59 | Label matchers are honoured (general form) | Promql/Model | induction over strings, samples and expressions | partial: `C59_matchers_refuted`, `C59_selected_partial` |
| C60 | Series seek | Promql/Model | induction over strings, samples and expressions | proved: `C60_seek`, `C60_iterate` |
| C61 | Query data is complete or an error is reported (general form) | Promql/Model with Client/Walk | reduction to the walk | partial: `C61_incomplete_refuted`, `C61_complete_partial` |
| C62 | JSON time/value conversion round trip | Marshaler/Model | round trip; for times an error bound on Flocq binary64 | partial: `C62_unset_refuted`, `C62_encodes`, `C62_round_trip_partial`, `C62_millis` |
| C63 | Nozzle batching | Nozzle/Model: diode ring buffer, batchers, workers | invariants over all event sequences | partial: `C63_lost_refuted`, `C63_order_refuted`, `C63_accounting_partial`, `C63_forwarded_partial`, `C63_flush` |
| C64 | Bounded buffer accounting | Nozzle/Model: diode ring buffer, batchers, workers | invariants over all event sequences | proved: `C64_accounting`, `C64_no_loss` |
| C65 | Syslog conversion | Syslog/Model | case analysis; for every map order | proved: `C65_conversion`, `C65_complete`, `C65_accounting` |
| C66 | Malformed syslog input never crashes the server (general form) | Syslog/Model | case analysis; for every map order | partial: `C66_crash_refuted`, `C66_complete_partial` |
| C67 | The limit bounds the answer (general form) | Store/Model, Avl, GoHeap | induction over the traversal with the count of displaced envelopes; invariant of in-order histories | partial: `C67_limit_exceeded_refuted`, `C67_excess_partial`, `C06_get_exact` |
| C68 | In-order writes read back in order | Store/Model, Avl, GoHeap | induction over the traversal with the count of displaced envelopes; invariant of in-order histories | partial: `C68_order_broken_refuted`, `C68_in_order_partial` |
| C69 | An unknown envelope type in a read request does not crash the node (general form) | Routing/Model (local store reader) | case analysis | partial: `C69_unknown_type_crashes_refuted`, `C69_enum_types_answered_partial` |
| C70 | Scheduled ranges reach the workers that hold them | Routing/Model (scheduler, static lookup) | induction on the number of ranges, 64-bit arithmetic | proved: `C70_schedule_routes` |
| C71 | A write request without a batch does not crash the node (general form) | Routing/Model (proxies, cluster of nodes) | induction over batches and lookups; composition over nodes; refutations by explicit clusters | partial: `C71_missing_batch_crashes_refuted`, `C71_batch_partial` |
| C72 | A range request without a range does not crash the node (general form) | Routing/Model (orchestrator with the slice's backing array) | refinement of the aliased array to a list | partial: `C72_missing_range_crashes_refuted`, `C72_with_range_partial` |
| C73 | A write reaches each owner once whatever the table (general form) | Routing/Model (proxies, cluster of nodes) | induction over batches and lookups; composition over nodes; refutations by explicit clusters | partial: `C73_duplicate_range_duplicates_refuted`, `C73_once_each_partial` |
| C74 | Clients are aligned with node numbers (general form) | Routing/Model (proxies, cluster of nodes) | induction over batches and lookups; composition over nodes; refutations by explicit clusters | partial: `C74_clients_aligned_partial`, `C74_failed_dial_shifts_refuted` |
| C75 | The store never deadlocks | StoreConc/Model: small-step machine, threads, storages by address, index map, locks | invariants over all schedules; explicit schedules for the refutations; for orderly schedules an invariant ties the truncation's heap to the index; C24/C76 by a simulation with the sequential store | proved: `C75_no_deadlock` |
| C76 | Without memory pressure the store is linearizable | StoreConc/Model: small-step machine, threads, storages by address, index map, locks | invariants over all schedules; explicit schedules for the refutations; for orderly schedules an invariant ties the truncation's heap to the index; C24/C76 by a simulation with the sequential store | proved: `C76_get_linearizable`, `C76_content_linearizable` |
| C77 | Every sample that satisfies a selector is selected (general form) | Promql/Model | induction over strings, samples and expressions | partial: `C77_instance_refuted`, `C77_complete_partial` |
| C78 | The points of a series are in time order (general form) | Promql/Model | induction over strings, samples and expressions | partial: `C78_disorder_refuted`, `C78_order_partial`, `C78_order_one_source` |
| C79 | The source ids of a query | Promql/Model | induction over strings, samples and expressions | proved: `C79_extract`, `C79_reads_asked` |
| C80 | Rewriting source ids in a query (general form) | Promql/Model | induction over strings, samples and expressions | partial: `C80_rewrite_partial`, `C80_bar_refuted` |
| C81 | The outcome of a syslog message depends on the message only (general form) | Syslog/Model | case analysis; for every map order | partial: `C81_order_refuted`, `C81_order_partial`, `C81_outcomes`, `C81_exact` |
| C82 | The batching client delivers or counts (general form) | Nozzle/Model: diode ring buffer, batchers, workers | invariants over all event sequences | partial: `C82_race_refuted`, `C82_rejected_refuted`, `C82_accounting_partial`, `C82_race_all_refuted`, `C82_serial_partial` |
| C83 | Pruning asks for the excess share (general form) | Prune/Model on Flocq binary64 | monotonicity and error bounds of rounding | partial: `C83_share_partial`, `C83_wrap_refuted` |
| C84 | A time written with three decimals survives being read and written again | Marshaler/Model | round trip; for times an error bound on Flocq binary64 | proved: `C84_millis_stable` |
| C85 | Key refresh is throttled under concurrency (general form) | Auth/Model, System | trace reasoning; explicit interleavings for the refutations | partial: `C85_concurrent_refuted`, `C85_paced_partial` |
| C86 | Revoked keys are forgotten (general form) | Auth/Model, System | trace reasoning; explicit interleavings for the refutations | partial: `C86_revoked_refuted`, `C86_refresh_partial` |
| C87 | Listing a user's sources ends (general form) | Auth/Model, System | trace reasoning; explicit interleavings for the refutations | partial: `C87_listing_refuted`, `C87_listing_partial` |
| C88 | Malformed tokens cannot crash a request (general form) | Auth/Model, System | trace reasoning; explicit interleavings for the refutations | partial: `C88_panic_refuted`, `C88_no_panic_partial` |
| C89 | The authorisation decision for a read is exact | Auth/Model, System: programs over an external world, interleaved | invariants over the log of external actions in every interleaving | proved: `C89_decision` |
| C90 | Within the cache lifetime no request is made to CAPI (general form) | Auth/Model, System: programs over an external world, interleaved | invariants over the log of external actions in every interleaving | partial: `C90_cached`, `C90_remembered_partial`, `C90_pruned_refuted` |
| C91 | An access log record identifies its request (general form) | AccessLog/Model: the record's template with html/template's escaper | induction over bytes; unique readability of the record | partial: `C91_same_record_refuted`, `C91_record_partial` |
| C92 | The access log records the client's address (general form) | AccessLog/Model: the record's template with html/template's escaper | induction over bytes; unique readability of the record | partial: `C92_ipv6_refuted`, `C92_source_partial` |
| C93 | The query checked by the proxy is the query run | Gateway/Model: net/http path, grpc-gateway routing and query decoding, with the library's version-dependent choices as parameters | parse/print round trips; composition with the proxy of Auth/ | partial: `C93_bracket_refuted`, `C93_query_partial` |
| C94 | Parameters of an HTTP read mean what they say | Gateway/SpecRadix.v: digits of a base and the literals a numeric parameter may be. | Gateway/Radix.v: the base-0 parser is exactly the literal relation, by induction over the digits; with it the read is exact for every query string of documented parameters. | partial: `C94_octal_refuted`, `C94_read_partial`, `C94_literals` |
| C95 | Every source id can be read over HTTP | Gateway/Model: net/http path, grpc-gateway routing and query decoding, with the library's version-dependent choices as parameters | parse/print round trips; composition with the proxy of Auth/ | partial: `C95_colon_refuted`, `C95_carried_partial` |
| C96 | Access log fields carry their values (general form) | AccessLog/Model: the record's template with html/template's escaper | induction over bytes; unique readability of the record | partial: `C96_second_field_refuted`, `C96_fields_partial` |
| C97 | Parameters of an HTTP query mean what they say | Gateway/Model: net/http path, grpc-gateway routing and query decoding, with the library's version-dependent choices as parameters | parse/print round trips; composition with the proxy of Auth/ | proved: `C97_instant`, `C97_range`, `C97_meta` |
| C98 | Times in query answers are exact | Times/Model: float64 times with Flocq binary64, the texts as strings | error bounds over the reals; correct rounding of ParseFloat is a hypothesis, met by a concrete parser | proved: `C98_exact` |
| C99 | A query is evaluated at the instant the client asked for (general form) | Times/Model: float64 times with Flocq binary64, the texts as strings | error bounds over the reals; correct rounding of ParseFloat is a hypothesis, met by a concrete parser | partial: `C99_millisecond_refuted`, `C99_close_partial`, `C99_millis_partial`, `C99_seconds_partial` |
| C100 | Numbers given as times and steps mean what they say or are refused (general form) | Times/Model: float64 times with Flocq binary64, the texts as strings | error bounds over the reals; correct rounding of ParseFloat is a hypothesis, met by a concrete parser | partial: `C100_open_refuted`, `C100_step_refuted`, `C100_decimal_partial`, `C100_refused` |
| C101 | Failed reads are not taken for missing data | Query/Model: queries over an arbitrary engine, a program that calls Select and returns | induction over the engine's program; invariants of the sequence of selections and reads | proved: `C101_instant`, `C101_range` |
| C102 | A query reads the sources it asks for, in its window, and nothing else | Query/Model: queries over an arbitrary engine, a program that calls Select and returns | induction over the engine's program; invariants of the sequence of selections and reads | proved: `C102_instant`, `C102_range`, `C102_authorised`, `C102_authorised_range`, `C102_each_once`, `C102_each_once_range` |
| C103 | The answer is what the engine found | Query/Model: queries over an arbitrary engine, a program that calls Select and returns | induction over the engine's program; invariants of the sequence of selections and reads | proved: `C103_instant`, `C103_range` |
| C104 | A query that is not understood is refused and reads nothing | Query/Model: queries over an arbitrary engine, a program that calls Select and returns | induction over the engine's program; invariants of the sequence of selections and reads | proved: `C104_instant`, `C104_range` |
| C105 | A query ends the process only if it evaluates to what no answer can hold | Query/Model: queries over an arbitrary engine, a program that calls Select and returns | induction over the engine's program; invariants of the sequence of selections and reads | proved: `C105_instant`, `C105_range` |
| C106 | What is stored is found by queries (general form) | Query/Model, with Promql/, Client/Walk and Store/ | composition: store, walk, data reader, selection | partial: `C106_end_refuted`, `C106_found_partial` |
| C107 | Access is refused for a reason only | Auth/Model, System | evidence in the history, by induction on executions: a cached list after n refreshes was preceded by n + 1 listings; the expansion of a query, exactly | proved: `C107_authorize`, `C107_read` |
| C108 | A query is expanded to everything its user may see (general form) | Auth/Model, System | evidence in the history, by induction on executions: a cached list after n refreshes was preceded by n + 1 listings; the expansion of a query, exactly | partial: `C108_bar_refuted`, `C108_expanded_partial` |
| C109 | A request goes through the OAuth2 client once | Oauth2/Model: any number of calls of Do, interleaved access by access to the token and the lock | inductive invariants of the transition system: the shape of each call's history at each program point, mutual exclusion, a count of tokens against refusals | proved: `C109_given`, `C109_sent` |
| C110 | The Authorization header is a token of the OAuth2 server (general form) | Oauth2/Model: any number of calls of Do, interleaved access by access to the token and the lock | inductive invariants of the transition system: the shape of each call's history at each program point, mutual exclusion, a count of tokens against refusals | partial: `C110_header_refuted`, `C110_header_partial` |
| C111 | Tokens are shared | Oauth2/Model: any number of calls of Do, interleaved access by access to the token and the lock | inductive invariants of the transition system: the shape of each call's history at each program point, mutual exclusion, a count of tokens against refusals | proved: `C111_tokens` |
| C112 | A refused token is given up | Oauth2/Model: any number of calls of Do, interleaved access by access to the token and the lock | inductive invariants of the transition system: the shape of each call's history at each program point, mutual exclusion, a count of tokens against refusals | proved: `C112_given_up` |
| C113 | Calls through the OAuth2 client do not block each other for ever | Oauth2/Model: any number of calls of Do, interleaved access by access to the token and the lock | inductive invariants of the transition system: the shape of each call's history at each program point, mutual exclusion, a count of tokens against refusals | proved: `C113_progress`, `C113_bounded` |
| C114 | Credentials are presented intact | Oauth2/Model: any number of calls of Do, interleaved access by access to the token and the lock | inductive invariants of the transition system: the shape of each call's history at each program point, mutual exclusion, a count of tokens against refusals | proved: `C114_credentials` |
| C115 | A new token is only asked for after a 401 (general form) | Oauth2/Model: any number of calls of Do, interleaved access by access to the token and the lock | inductive invariants of the transition system: the shape of each call's history at each program point, mutual exclusion, a count of tokens against refusals | partial: `C115_unauthorized_refuted`, `C115_refused_partial` |
| C116 | Only the leader changes nodes | Scheduler/Model: any number of schedulers, elections, restarts, failing calls; the orchestrator library issues any calls at any time | histories of labelled events: invariants by induction on the history, and forward from a decision; composition with Routing/ for the lookups | proved: `C116_leader_only`, `C116_never_leader`, `C116_no_leader_no_change` |
| C117 | Each decision sends one table to every node once | Scheduler/Model: any number of schedulers, elections, restarts, failing calls; the orchestrator library issues any calls at any time | histories of labelled events: invariants by induction on the history, and forward from a decision; composition with Routing/ for the lookups | proved: `C117_sent_once`, `C117_sent_prefix` |
| C118 | Nodes reached by the same decision route alike | Scheduler/Model: any number of schedulers, elections, restarts, failing calls; the orchestrator library issues any calls at any time | histories of labelled events: invariants by induction on the history, and forward from a decision; composition with Routing/ for the lookups | proved: `C118_agreement` |
| C119 | One leader at a time is enough for agreement (general form) | Scheduler/Model: any number of schedulers, elections, restarts, failing calls; the orchestrator library issues any calls at any time | histories of labelled events: invariants by induction on the history, and forward from a decision; composition with Routing/ for the lookups | partial: `C119_one_leader_refuted`, `C119_no_overlap_partial` |
| C120 | An accepted write is handed to a node (general form) | Scheduler/Model: any number of schedulers, elections, restarts, failing calls; the orchestrator library issues any calls at any time | histories of labelled events: invariants by induction on the history, and forward from a decision; composition with Routing/ for the lookups | partial: `C120_restart_blank`, `C120_accepted_write_refuted`, `C120_accepted_write_partial` |
| C121 | The published table is what the nodes answered | Scheduler/Model: any number of schedulers, elections, restarts, failing calls; the orchestrator library issues any calls at any time | histories of labelled events: invariants by induction on the history, and forward from a decision; composition with Routing/ for the lookups | proved: `C121_published_listings`, `C121_listing_true`, `C121_node_holds`, `C121_every_hash_owned` |
| C122 | An answer holds nothing that was not written | Store/, Whole/Model: a running cluster as a transition system (sends, envelopes on their way, losses, tables, prunings, restarts, reads) | inductive invariant: what each node stores, together with what is on its way to it, is part of what was sent, as multisets | proved: `C122_written` |
| C123 | A cluster answers only what was sent to it, and nothing twice (general form) | Store/, Whole/Model: a running cluster as a transition system (sends, envelopes on their way, losses, tables, prunings, restarts, reads) | inductive invariant: what each node stores, together with what is on its way to it, is part of what was sent, as multisets | partial: `C123_written`, `C123_once_refuted`, `C123_once_partial`, `C123_tables_fine` |
| C124 | A user reads nothing but what was sent for sources they may see (general form) | Auth/System, Gateway/, Query/, Whole/ | composition of the theorems about the components | partial: `C124_read_partial` |
| C125 | A query reads nothing but sources its user may see (general form) | Auth/System, Gateway/, Query/, Whole/ | composition of the theorems about the components | partial: `C125_instant_partial`, `C125_range_partial` |
| C126 | The client finds the API of the server's version | Http/Model: the client's functions as sequences of requests, the gateway's answers as a relation, semver transcribed | inversion of conversations; the grammar of versions; composition with Gateway/ (C47, routing, parameters) and Marshaler/ (C62) | partial: `C126_read`, `C126_meta`, `C126_unversioned_refuted`, `C126_prerelease_refuted`, `C126_gateway_partial`, `C126_gateway_meta_partial` |
| C127 | The uptime the client reports is the gateway's | Http/Model: the client's functions as sequences of requests, the gateway's answers as a relation, semver transcribed | inversion of conversations; the grammar of versions; composition with Gateway/ (C47, routing, parameters) and Marshaler/ (C62) | proved: `C127_uptime`, `C127_any_server`, `C127_uptime_json` |
| C128 | Failing queries are reported as failing, with the reason | Http/Model: the client's functions as sequences of requests, the gateway's answers as a relation, semver transcribed | inversion of conversations; the grammar of versions; composition with Gateway/ (C47, routing, parameters) and Marshaler/ (C62) | partial: `C128_instant`, `C128_range`, `C128_reason_refuted`, `C128_reason_partial`, `C128_instant_json`, `C128_range_json`, `C128_reason_json` |
| C129 | A query means and yields the same over gRPC and over HTTP | Http/Model: the client's functions as sequences of requests, the gateway's answers as a relation, semver transcribed | inversion of conversations; the grammar of versions; composition with Gateway/ (C47, routing, parameters) and Marshaler/ (C62) | partial: `C129_instant_request`, `C129_range_request`, `C129_instant_answer_partial`, `C129_range_answer_partial`, `C129_instant_json_partial`, `C129_range_json_partial` |
| C130 | A read gives what the node holds, and nothing is missing within the bound | Whole/Model with Whole/SpecFull: per node a bounded list in time order | refinement of each node's store by the list; conservation of what was sent as multisets; composition with the read path | proved: `C130_answer`, `C130_nothing_missing` |
| C131 | Everything sent is accounted for | Whole/Model with Whole/SpecFull: per node a bounded list in time order | refinement of each node's store by the list; conservation of what was sent as multisets; composition with the read path | proved: `C131_accounted` |
| C132 | Once everything has arrived all of it can be read through any node | Whole/Model with Whole/SpecFull: per node a bounded list in time order | refinement of each node's store by the list; conservation of what was sent as multisets; composition with the read path | proved: `C132_all_readable` |
| C133 | Every request is in the access log before it is looked at | Proxy/Model: the access log in front of Auth/System, the reverse proxy's director | invariant over reachable states (each goroutine that serves has its one write); every execution without the log is lifted to one with it and back | proved: `C133_logged_first`, `C133_file` |
| C134 | The access log has one line per request | Proxy/Model: the access log in front of Auth/System, the reverse proxy's director | invariant over reachable states (each goroutine that serves has its one write); every execution without the log is lifted to one with it and back | partial: `C134_lines_refuted`, `C134_lines_partial`, `C134_passed_on` |
| C135 | Whether the access log can be written makes no difference to clients | Proxy/Model: the access log in front of Auth/System, the reverse proxy's director | invariant over reachable states (each goroutine that serves has its one write); every execution without the log is lifted to one with it and back | proved: `C135_indifferent`, `C135_failing` |
| C136 | The gateway is asked for what the client asked for | Proxy/Model: the access log in front of Auth/System, the reverse proxy's director | invariant over reachable states (each goroutine that serves has its one write); every execution without the log is lifted to one with it and back | proved: `C136_gateway_asked` |
| C137 | A query whose data cannot be read fails | Query/Model over node_reader (the walking reader with its back-off and deadline) | the events of an execution determine which reads were answered; composition with C101 | partial: `C137_down_refuted`, `C137_deadline_partial`, `C137_deadline_range_partial` |
| C138 | The blackbox writes one test metric per interval | Blackbox/Model: ticks over arbitrary clock readings and failures; durations, quotients and conversions in binary64 (Flocq) | induction over ticks; error bounds of one rounding against the distance between quotients of integers; counting of multiples in an interval | partial: `C138_ticks_partial`, `C138_logged_refuted` |
| C139 | The blackbox reports what it measured and keeps running | Blackbox/Model: ticks over arbitrary clock readings and failures; durations, quotients and conversions in binary64 (Flocq) | induction over ticks; error bounds of one rounding against the distance between quotients of integers; counting of multiples in an interval | partial: `C139_panic_refuted`, `C139_report_partial` |
| C140 | The reliability is the part of the test metrics that arrived | Blackbox/Model: ticks over arbitrary clock readings and failures; durations, quotients and conversions in binary64 (Flocq) | induction over ticks; error bounds of one rounding against the distance between quotients of integers; counting of multiples in an interval | partial: `C140_expected_partial`, `C140_value_partial`, `C140_error_partial`, `C140_parts_refuted`, `C140_short_refuted` |
| C141 | Components talk to genuine nodes only | Tls/Model: the tls.Config each process builds from its files; crypto/tls as a relation over arbitrary peers | inversion of the configuration that was built | proved: `C141_nodes`, `C141_accepts`, `C141_files` |
| C142 | Nodes serve genuine components only | Tls/Model: the tls.Config each process builds from its files; crypto/tls as a relation over arbitrary peers | inversion of the configuration that was built | partial: `C142_strangers_refuted`, `C142_served_partial` |
| C143 | The proxy talks to genuine services | Tls/Model: the tls.Config each process builds from its files; crypto/tls as a relation over arbitrary peers | inversion of the configuration that was built | partial: `C143_uaa_partial`, `C143_capi_partial`, `C143_gateway_partial`, `C143_old_refuted`, `C143_skip` |
| C144 | The same query over the same data has the same answer (general form) | Promql/Model.select with the iteration orders of gauges and of the source id set as parameters | the points of a label set come from one source; equality of the builders label set by label set | partial: `C144_same_answer_refuted`, `C144_source_order_refuted`, `C144_same_answer_partial` |
| C145 | An outage of CAPI does not outlast itself (general form) | Auth/System as for C107 | composition of the evidence of a refusal (C107) with the time of the failures; a concrete execution for the negative part | partial: `C145_outage_refuted`, `C145_recovered_partial`, `C145_read_partial` |
| C146 | The number of a sample is the number of the envelope | Promql/Model.value_of with the conversions as Flocq binary64 (Promql/Values.number) | correctness of rounding to nearest; monotony of rounding | partial: `C146_counter`, `C146_growing`, `C146_timer_refuted`, `C146_timer_partial` |
| C147 | The nozzle asks for the envelope types configured | Nozzle/Model.build_batch_req | case analysis of the names | partial: `C147_unknown_refuted`, `C147_types_partial` |
| C148 | What a node accepts for a peer is sent before long | Nozzle/Model (bic) | each turn reads on or finds the ring empty: induction over the turns on the invariant of C82 | proved: `C148_rest` |
| C149 | What is said about sources is true (general form) | Whole/Model (nodes and their stores), Routing/Model.egress_meta, Auth/System | invariant of the numbers of a source along the run of the cluster, composed with C37, C38 and C50; a concrete run for the negative part | partial: `C149_node`, `C149_moved_refuted`, `C149_answer_partial`, `C149_user_partial` |
| C150 | Query strings mean what they spell | Base/Url (net/url's parseQuery, as used by the proxy and the gateway) | equivalence with inductive relations for the grammar, by induction on the length of the string | proved: `C150_legal`, `C150_parameters`, `C150_instant` |
| C151 | What the syslog server receives is sent on or counted (general form) | Syslog/Server (connections, the diode written by several goroutines step by step, the batching client) | invariants over runs of the transition system; the in-turn case by simulation of the sequential client (C82); a concrete race | partial: `C151_account`, `C151_race_refuted`, `C151_in_turn_partial`, `C151_one_connection_partial` |
| C152 | Idle syslog connections are closed, busy ones are not (general form) | Syslog/Server (deadlines, clock) | invariant: the deadline is the last completion plus the timeout; induction over nanoseconds for the negative part | partial: `C152_busy_refuted`, `C152_idle_partial`, `C152_closed` |
| C153 | A running syslog server goes on serving (general form) | Syslog/Server (Accept, failures of Accept) | invariant; enabledness of steps | partial: `C153_accept_refuted`, `C153_serving_partial` |
| C154 | What the syslog server accepts can be read (general form) | Syslog/Server composed with Whole/Model | C131's accounting with the syslog server's node as the owner, composed with C151 | partial: `C154_misplaced`, `C154_cluster_refuted`, `C154_readable_partial` |
| C155 | What is read over HTTP is what the node answered | Json/Text (encoding/json's text), Json/Pb (base64, jsonpb's reading and writing of the messages), Json/Codec (status codes) | the reader is a parser on fuel; what the writer writes it reads, by induction on the tree, the number of calls being bounded by the length of the text; fields by name; then C126 to C129 are instantiated, which removes their hypotheses about JSON and status codes | proved: `C155_read`, `C155_meta`, `C155_meta_styles`, `C155_envelope_names` |
| C156 | Clients read the answers of newer servers (general form) | Json/Text (encoding/json's text), Json/Pb (base64, jsonpb's reading and writing of the messages), Json/Codec (status codes) | the reader is a parser on fuel; what the writer writes it reads, by induction on the tree, the number of calls being bounded by the length of the text; fields by name; then C126 to C129 are instantiated, which removes their hypotheses about JSON and status codes | partial: `C156_unknown_refuted`, `C156_unknown_inside_refuted`, `C156_known_partial` |
| C157 | A node's metrics account for its history (general form) | StoreConc/Metrics beside StoreConc/Model: the gauge update as two steps of its own | invariants over all interleavings, with the accounting of C22; a concrete interleaving for the negative part | partial: `C157_ingress`, `C157_balance`, `C157_egress`, `C157_size_refuted`, `C157_size_partial` |
| C158 | Those who may not see anything are told nothing | Auth/Model, Auth/System (as C49, C54) | local traces of the handlers, with C54's soundness of vouching; the two-world statement follows as the answer is a function of the request | proved: `C158_stranger`, `C158_alike`, `C158_hidden`, `C158_status` |
| C159 | The HTTP status names what happened | Gateway/Model, Http/Model (answers), Json/Codec (status table) against Json/SpecStatus | case analysis over the answers; the table by computation | proved: `C159_gateway` |
| C160 | Any program can read the envelopes | Json/Pb (the writer) against Json/SpecShape and Json/SpecBase64, which are written from README.md, protobuf's JSON mapping and RFC 4648 | membership in the list of written fields; base 64 by induction over the bytes with bits as digits; the text via C155's reader | proved: `C160_read`, `C160_base64`, `C160_base64_one`, `C160_special` |
| C161 | The list of sources has the documented shape (general form) | Json/Pb (the writer) against Json/SpecShape and Json/SpecBase64, which are written from README.md, protobuf's JSON mapping and RFC 4648 | membership in the list of written fields; base 64 by induction over the bytes with bits as digits; the text via C155's reader | partial: `C161_gateway_refuted`, `C161_proxy_partial`, `C161_gateway_partial` |
| C162 | The proxy starts only with UAA's keys and keeps them through an outage | Auth/Model (refresh), an uninterrupted run | case analysis of the run, induction over the list of keys; C86 for the exact set | proved: `C162_start`, `C162_outage`, `C162_throttled`, `C162_bad_key` |
| C163 | What a process receives over gRPC is what was sent | Wire/Format (varints, fixed numbers, tags), Wire/Model (each message's fields, writer and reader) | induction over bytes and field lists; each message field by field; texts against utf8 of Json/Spec | proved: `C163_send`, `C163_read`, `C163_read_response`, `C163_meta`, `C163_meta_response`, `C163_table`, `C163_ranges`, `C163_range`, `C163_queries`, `C163_refused` |
| C164 | Peers of other versions and languages are understood | Wire/Model's readers | the reader is a fold; steps of different fields commute (case analysis), so lists that agree field by field read alike; single fields by computation with arbitrary values | proved: `C164_format_read`, `C164_format_write`, `C164_format_short`, `C164_order`, `C164_unknown`, `C164_mistyped`, `C164_map_order`, `C164_envelope_numbers`, `C164_request_numbers` |
| C165 | What a node was sent it can pass on and serve | Wire/Model's readers | invariant over the fields of any byte string: texts are UTF-8 and numbers have their size | proved: `C165_forward`, `C165_serve` |
| C166 | The gateway gets the query answer that the node computed | Wire/Result (the answers of promql.proto), Query/Model's answers as messages | Wire/ResultProofs: as C163, with labels up to nil and empty maps; the page by induction over the samples | proved: `C166_instant`, `C166_range`, `C166_any`, `C166_refused`, `C166_shown`, `C166_shown_range`, `C166_order`, `C166_numbers` |
| C167 | A Go client over gRPC returns the node's answer and never crashes its caller (general form) | Wire/Client (the gRPC half of pkg/client, a node's handlers) over Wire/Model and Gateway/Model's requests | composition of the round trips of C163, C165 and C166 with the requests of C47 and C129 | partial: `C167_crash_refuted`, `C167_safe_partial`, `C167_read`, `C167_not_utf8`, `C167_meta`, `C167_instant`, `C167_range` |
| C168 | Whatever bytes clients send, a node stays up and answers (general form) | Wire/Node: a node's Send, Read, Meta handlers on bytes over Routing/Model and Store/Model | Wire/NodeProofs: a call acts on the store as a list of store operations, so C15, C122, C14 and the exactness lemmas of Whole/ProofsFull carry over; answers encode because everything held was decoded (C165) | partial: `C168_crash_refuted`, `C168_up_partial`, `C168_garbage`, `C168_elsewhere`, `C168_answer`, `C168_exact`, `C168_meta`, `C168_cluster` |
| C169 | The proxy reads the documents of UAA and CAPI for what they say | Auth/Docs: encoding/json's decoding of tokenKeys, decodedToken and CAPI pages over Json/Text trees; ParseFloat and int64 exactly | Auth/DocsProofs: each field depends on its one member only, so order and other members do not matter; Auth/DocsMore: correct rounding is monotone and whole numbers below 2^53 are floats; Auth/DocsOrigin: an invariant of decoding over all members and reused array places; composed with C48 | proved: `C169_keys`, `C169_claims`, `C169_claims_close`, `C169_page`, `C169_scope_origin`, `C169_guid_origin`, `C169_key_origin`, `C169_kinds`, `C169_read` |
| C170 | JSON is read as RFC 8259 defines it | Json/Text.v (reader and writer of encoding/json) | Json/SpecGrammar.v is the grammar as inductive relations; Json/Grammar.v proves that the reader accepts a text with a tree iff the grammar derives it: soundness by induction on the fuel, completeness by mutual induction on derivations, UTF-8 by arithmetic on code points. | proved: `C170_read`, `C170_one`, `C170_refused`, `C170_first`, `C170_begins`, `C170_written` |
| C171 | A process starts exactly with the settings its environment gives | Setup/SpecFraction.v: amounts with digits after a point, for any rounding of a fraction | Setup/FractionProofs.v: the reader of a fraction keeps value and scale; induction over the amounts (C171_fraction) | proved: `C171_duration`, `C171_duration_one`, `C171_fraction`, `C171_starts`, `C171_defaults`, `C171_loaded`, `C171_missing`, `C171_invalid`, `C171_required`, `C171_node`, `C171_scheduler`, `C171_addresses` |
| C172 | Nodes whose settings are accepted keep what they are sent and find it again (general form) | Setup/Model: the clients a node makes from its index and addresses, localIdx, calls of Send and Read on nodes as they are wired, messages on their way | Setup/Proofs: correctly wired nodes simulate the cluster of Routing/Model (Send is a delivery there once all messages have arrived, in any order; Read agrees), so C35 carries over; invariants over histories for wrong indices | partial: `C172_wired_partial`, `C172_stays_partial`, `C172_settles_partial`, `C172_read_your_writes_partial`, `C172_outside`, `C172_circulates_refuted`, `C172_swapped_refuted`, `C172_dial_refuted`, `C172_zero_refuted`, `C172_count_refuted` |
| C173 | What a node has accepted can be read back, whatever its size (general form) | Wire/Frame: gRPC's length-prefixed messages and its default limit of 4 MiB on what is received, around the node of Wire/Node | Wire/FrameProofs: sizes of encodings (projection never grows an envelope, an envelope costs at most 11 bytes more inside an answer), Wire/FrameLarge: the large messages symbolically, never computed | partial: `C173_frame`, `C173_call`, `C173_history`, `C173_read_refuted`, `C173_batch_refuted`, `C173_walk_refuted`, `C173_meta`, `C173_meta_refuted`, `C173_fits`, `C173_batch`, `C173_node_partial` |
| C174 | Every source id has one place in the cluster, fixed by its bytes, and ids are spread evenly | Hash/Model: crc64.Checksum with the ECMA table, as log_cache.go uses it | Hash/Proofs: a step on bits is linear and invertible on 64-bit words, a byte is eight steps, eight bytes are one word; the register of the standard (Hash/Spec) is the mirror image, by induction on the bits | proved: `C174_crc`, `C174_owned`, `C174_known`, `C174_near`, `C174_reached`, `C174_share`, `C174_shared` |
| C175 | A request is redirected at most once, to the one plain path that names the same place | Gateway/Model.v http_clean, path_clean, clean_step; Gateway/SpecPath.v: segments, going along them, plain paths | Cleaning is a fold over segments: `goes` follows it step by step (goes_fold), is deterministic, and a place written plainly names itself; every path has exactly one plain form, so the function is characterised by an equivalence. The proxy's forwards come from the trace lemmas of C48/C49. | proved: `C175_target`, `C175_place`, `C175_gateway`, `C175_forwarded` |
| C176 | A token is believed only for what was signed, whatever text is sent | Auth/Jose.v: base64url, compact parts, header map, verify and decrypt up to the key function; RSA is a parameter | Auth/JoseProofs.v: the encoder writes RFC 4648's text (through Json/Base64.v) and it is the only one; decoding undoes it, so that parts of a compact token are read back; what is verified is the re-serialised header and payload, i.e. the RFC's signing input. C176_read: C169_read with these libraries. | proved: `C176_issued`, `C176_signed`, `C176_read`, `C176_respelled`, `C176_panic` |
| C177 | The messages framed on a syslog connection are the messages stored, however the bytes arrive (general form) | Syslog/Octet.v: go-syslog's octet counting scanner and parser over a bufio.Reader, on what has arrived so far, open or ended; Syslog/SpecOctet.v: frames of RFC 6587 and streams of them | Syslog/OctetProofs.v: three scans over a frame; a case analysis of the first token (a frame, waiting, an error); induction over the length of the input; monotonicity of every scan in the input for arrival in pieces | partial: `C177_delivered`, `C177_exactly`, `C177_pieces`, `C177_ends`, `C177_each_refuted`, `C177_silent`, `C177_server` |
| C178 | Memory comes back down to the configured limit | Prune/Loop.v: the truncation loop with the consultant's answer computed from the store (heap = base + weights of the stored envelopes) | Prune/LoopProofs.v: C83's bound on the quantity and C11's truncation give the excess after a pass; a potential argument (excess minus four envelopes shrinks by a factor) gives induction over passes | proved: `C178_passes`, `C178_pass` |
| C179 | Times and steps written as text mean what they say (general form) | Times/Texts.v: time.Parse for RFC3339Nano with time.Date, and model.ParseDuration; Times/SpecTexts.v: the calendar as day following day, the grammar, the units | Times/Calendar.v: the closed form of time.Date counts days (a table of 400 years, checked by computation, and a shift), so that every real date is reached from 1 January 1970; Times/TextsProofs.v: each reader is characterised both ways and the whole is an equivalence | partial: `C179_time`, `C179_calendar`, `C179_time_exact`, `C179_taken_refuted`, `C179_leap_refuted`, `C179_step_partial`, `C179_step_exact`, `C179_step_refuted` |
| C180 | The control service of a node: additions, removals, lists and tables of ranges, as bytes on its port (general form) | Wire/Control: the four RPCs on bytes; slices handed out and encoded later; nil pointers of protobuf before 1.4 | histories of calls project to the agent's operations (C39, C40), invariants over every cell of every backing array; round trips of C164; refinement of Scheduler/Model's `serves` | partial: `C180_garbage`, `C180_nothing_refuted`, `C180_nil_refuted`, `C180_down`, `C180_up_partial`, `C180_listed_partial`, `C180_torn_refuted`, `C180_drawn`, `C180_routes`, `C180_scheduler` |
| C181 | The messages on a syslog connection: every RFC 5424 line arrives as the envelope it says (general form) | Syslog/Message.v: go-syslog's RFC 5424 machine, part by part, with time.Parse of Times/Texts.v; Syslog/SpecMessage.v: the grammar as a relation between texts and messages | Syslog/MessageProofs.v, MessageMore.v: each part accepts exactly the grammar's texts (inversion, and computation up to the byte that ends the part); UTF-8 automaton against Unicode's table; composed with C177 (frames) and C65 (envelopes) | partial: `C181_grammar`, `C181_server`, `C181_log`, `C181_metric`, `C181_limits`, `C181_names_refuted`, `C181_nanos_refuted`, `C181_years_refuted`, `C181_crash_refuted`, `C181_alive_partial` |
| C182 | A line written to the syslog port is read back over HTTP | Wire/SpecPipeline.v: batches of one sender among the calls of a node's port; a gateway whose backend is that port; the programs are those of C181, C163, C173, C165, C126, C155 | Wire/PipelineSyslog.v: what the grammar lets through can be marshalled; Wire/PipelineProofs.v: what the node holds and answers, sizes of requests; composed in Props/PipelineProps.v | proved: `C182_read`, `C182_all`, `C182_log` |
| C183 | Between its nodes a cluster talks in bytes, and that changes nothing | Wire/Cluster.v: the cluster of Whole/Model.v with bytes between clients and nodes and between nodes; reads are calls that go from node to node and back, one step at a time; Wire/SpecCluster.v: the messages a history of bytes stands for | Wire/ClusterProofs.v: refinement of Whole/Model.v, with the invariant that what was decoded encodes and decodes to itself, and what a call under way carries; Wire/ClusterOwner.v: where a call can be while tables stay; then C130 to C132 | proved: `C183_refines`, `C183_answer`, `C183_owner`, `C183_all`, `C183_served` |
| C184 | Whatever node a line is sent to and whatever node is asked, it is read back over HTTP | Wire/SpecPipelineCluster.v: batches of one sender among the events of a byte cluster; a gateway whose backend is a node of it; the programs are those of C181, C183, C155 | Wire/PipelineCluster.v: from C183's owner theorem and sizes of requests; composed in Props/PipelineClusterProps.v with C155 and C181 | proved: `C184_read`, `C184_all`, `C184_log`, `C184_reaches` |
| C185 | The number a client reads over HTTP is, to the bit, the number the node holds, and is written as short as can be | Float/Model.v: strconv.ParseFloat of a JSON number and encoding/json's floats, on the integers (a float64 is its bits; numbers are fractions); Float/Spec.v: which number a float64 is, nearest, digits | Float/Proofs.v: what is written is read; Float/Nearest.v: rounding to even among all float64; Float/Short.v: what lies between a float64 and a number read as it is read as it too, so that the two neighbours with n digits decide; gaps of 2^-53 against 10^-16 make 17 enough | proved: `C185_back`, `C185_nearest`, `C185_negative`, `C185_shortest`, `C185_sign`, `C185_http`, `C185_shape` |
| C186 | The numbers of query results survive HTTP: values to the bit, times to the nearest millisecond | Float/Parse.v: strconv.ParseFloat with signs, infinities and NaN, the shortest text without exponent, three decimals; the library record of Marshaler/Model.v filled with them | Float/ParseProofs.v: a thousandth is nearest to the float64 it came from, so what is read back is as near to it, and rounds to it (ties by the evenness of both); then C62 and C129 | proved: `C186_value`, `C186_shortest`, `C186_time`, `C186_stable`, `C186_parse`, `C186_round_trip`, `C186_instant`, `C186_range` |
| C187 | A decimal number sent in comes out as the same number (general form) | Float/Gauge.v: the value of a gauge of a syslog message by Float/Parse.v's ParseFloat; Float/Fifteen.v; vocabulary Float/SpecDigits.v | A decimal of fifteen digits and the shortest decimal are both within half a step of the float64, and two different decimals of fifteen digits are farther apart than a step (10^15 < 2^52); then C181_metric | partial: `C187_document_partial`, `C187_result_partial`, `C187_value_partial`, `C187_gauge_partial`, `C187_words`, `C187_reads`, `C187_sixteen_refuted`, `C187_tiny_refuted` |
| C188 | A metric in a syslog line reaches an HTTP client through a cluster, a gauge's number as the nearest float64 | the programs of C184 with Float/Gauge.v as the syslog server's ParseFloat and Float/Model.v as the gateway's and client's texts of numbers | every metric that is read can be carried by protobuf and JSON (says_sendable); then C181_metric, C184_all, C186's reading of decimals and C187 | proved: `C188_metric`, `C188_gauge` |
| C189 | The info page is a document that gives the gateway's version and uptime (general form) | Http/Model.v: info_doc (handleInfoEndpoint) and vm_uptime; Json/Text.v: encoding/json's reading | a text without quotes, backslashes and control characters stands for itself between quotes; the refutations by computing with one version each | partial: `C189_page_partial`, `C189_uptime_partial`, `C189_page_refuted`, `C189_control_refuted`, `C189_uptime_refuted` |
| C190 | Syslog lines that cannot be read do not disturb the others | Syslog/Octet.v, Syslog/Message.v, Syslog/Model.v (serve), Float/Gauge.v; refused in Props/RefusedProps.v | the order of one element is determined, so convert is Invalid exactly if it says nothing; then by induction over the messages; C187_reads for the values | proved: `C190_server`, `C190_metric`, `C190_gauge` |

## 3. Trusted base

### 3.1 Proof assistant

* The kernel of Coq 8.16.1, including its `vm_compute` (used on concrete witnesses and boolean tests).
* Libraries: Coq's standard library, std++ and, for floating point, Flocq. No axiom of std++ or Flocq is used, no
  plugin, no axiom of our own, no functor or module type of our own.

### 3.2 `Print Assumptions`

* 541 of the 560 theorems in `Props/` are "Closed under the global context". The other 19 are about IEEE arithmetic: all of
  C25 and C83 (`PruneProps.v`), all of C146 (`ValueProps.v`) and C178 (`MemoryProps.v`), most of C140 (`BlackboxProps.v`) and of C179 (`ClockProps.v`: those about parse_time and parse_step), of C98-C100 (`TimesProps.v`) and C103 (`QueryProps.v`) and `C84_millis_stable` (`MarshalerProps.v`). Each of them lists exactly
  `ClassicalDedekindReals.sig_not_dec`, `ClassicalDedekindReals.sig_forall_dec`,
  `FunctionalExtensionality.functional_extensionality_dep` and `Classical_Prop.classic`, all of the standard library.
* A check of all loaded modules (coqchk) also names the sealed modules of the standard library's reals
  (`Rdefinitions.RbaseSymbolsImpl`, `Rdefinitions.RinvImpl`) and of ssreflect (`ssrunder.Under_rel`), because libraries we
  import load them. They are module types given by definitions there, and no theorem's assumptions list them.

### 3.3 The transcription

The correspondence between the Go code and the model is by reading. It is not proved. It includes third-party code that
is not in `/repo`, in two ways.

*Written down from the libraries' published behaviour, hence trusted:* `emirpasic/gods` AVL tree, Go's
`container/heap`, `sort.Search`, decimal conversions of `strconv`, `net/url` queries, `go-diodes` OneToOne (ring buffer and its
race), `go-batching`, `net/http` path handling, grpc-gateway path and query decoding, the escaper of `html/template`,
`strings` functions, IEEE binary64 (Flocq), the text of a float64 (`strconv` and `encoding/json`, Float/Model.v), `encoding/json` and `encoding/base64` texts, `golang/protobuf/jsonpb`, `golang/protobuf/proto`,
grpc-gateway's status codes.

*Parameters, so the theorems hold for every instance that meets the stated hypotheses:* regular expressions,
the PromQL parser and printer, RSA (jose is written out in Auth/Jose.v) and the answers of UAA, CAPI and
every peer, clocks, hash functions (the one in use is `Hash/`), map iteration order, random choices, number formatting in the marshaler
(`exact_short`, `stable3`; `Float/Parse.v` has the one in use, C186), and the grpc-gateway version (JSON names, bracketed keys, colon verbs).

### 3.4 What is modelled

| code | where |
|---|---|
| `internal/cache/store/store.go` | `Store/` (sequential), `StoreConc/` (interleavings) |
| `internal/cache/store/prune_consultant.go`, `store.go` truncationLoop with the heap as a function of the store | `Prune/` |
| `internal/routing/*.go`, `internal/cache/log_cache.go` (wiring of clients), `internal/scheduler/scheduler.go` (ranges, publishing) | `Routing/`, `Nozzle/` (batching client) |
| `internal/nozzle/nozzle.go` | `Nozzle/` |
| `internal/syslog/server.go` (conversion, loop) | `Syslog/` |
| `internal/syslog/server.go` (Start, handleConnection, deadlines), `cmd/syslog-server/main.go` | `Syslog/Server.v` |
| `internal/promql/promql.go` (selection, series, source ids, rewriting), `data_reader` | `Promql/` |
| `pkg/marshaler/marshaler.go` | `Marshaler/` |
| `pkg/client/walk.go`, `window.go`, `client.go` (read and its options) | `Client/`, `Gateway/` |
| `internal/gateway/gateway.go` (routing), `egress.pb.gw.go`, `promql.pb.gw.go` | `Gateway/` |
| `internal/auth/{uaa_client,capi_client,cf_auth_middleware}.go` | `Auth/` |
| `internal/auth/{access_log,access_logger}.go` | `AccessLog/` |
| `internal/promql/parsing.go`, `formatPromqlTime`, `formatDecimalTimeWithMillis` | `Times/` |
| `internal/promql/promql.go` (InstantQuery, RangeQuery, results, querier) | `Query/` |
| `pkg/client/oauth2_http_client.go` | `Oauth2/` |
| `internal/scheduler/scheduler.go` (loop, setRemoteTables, comm), `cmd/scheduler/main.go` (leadership) | `Scheduler/` |
| the cluster as a whole: `log_cache.go` wiring, calls in flight, losses, restarts | `Whole/` |
| `pkg/client/client.go` over HTTP (versions, Read, Meta, uptime, PromQL*), `internal/gateway/gateway.go` answers, info page, error handler; semver | `Http/` |
| `internal/auth/access_middleware.go`, `access_logger.go`, `internal/cfauthproxy/cf_auth_proxy.go` (handlers in order; httputil's director) | `Proxy/` |
| `internal/blackbox/blackbox.go` (test metrics, Calculate, EmitMeasuredMetrics; not printMissingSamples), `cmd/blackbox/main.go` (the loop) | `Blackbox/` |
| `internal/tls/tls.go`, the TLS configuration in `cmd/*/main.go`, `cf_auth_proxy.go`, `gateway.go` | `Tls/` |
| the JSON of responses (`pkg/client/client.go` Read and Meta, `internal/gateway/gateway.go` marshaler, the proxy's Meta): jsonpb, encoding/json, base64 | `Json/` |
| the text of a float64 in those responses: `strconv.ParseFloat`, `strconv.AppendFloat` with the shortest precision, `encoding/json`'s choice of notation; `strconv` and `%.3f` in `pkg/marshaler/marshaler.go`; `strconv.ParseFloat` in `internal/syslog/server.go` convertGauge | `Float/` |
| the protobuf encoding of the messages of `api/v1/*.proto` (`pkg/rpc/logcache_v1/*.pb.go` with golang/protobuf v1.3) and of the envelope; the gRPC half of `pkg/client/client.go` | `Wire/` |
| encoding/json into the structs of `internal/auth/uaa_client.go` and `capi_client.go` | `Auth/Docs.v` |
| `cmd/*/config.go` (all seven, with go-envstruct from its documentation), `cmd/log-cache/main.go` and `internal/cache/log_cache.go` New, setupRouting (clients, localIdx) | `Setup/` |
| gRPC's framing of messages and its default limits (no option in /repo changes them) | `Wire/Frame.v` |
| `hash/crc64` (ECMA table) as `internal/cache/log_cache.go` uses it | `Hash/` |
| jose2go (compact form, base64url, header), as `internal/auth/uaa_client.go` Read calls it | `Auth/Jose.v` |
| `github.com/influxdata/go-syslog/octetcounting` (not in /repo; as published, no best-effort mode) | Syslog/Octet.v: octets |
| `time.Parse(time.RFC3339Nano, _)` and `time.Date` (Go 1.12), `model.ParseDuration` (prometheus/common), as `internal/promql/parsing.go` calls them (not in /repo) | `Times/Texts.v` |
| Wire/Control.v | pkg/rpc/logcache_v1/orchestration.pb.go handlers over internal/routing/orchestrator.go and routing_table.go SetRanges: requests and answers as bytes, answers encoded after the lock is released. Left out: panics inside the sort (it has none), the gRPC frame (C173) |
| `github.com/influxdata/go-syslog/rfc5424` (not in /repo; as published, no best-effort mode) | Syslog/Message.v: parse_message |
| Wire/Cluster.v | internal/cache/log_cache.go setupRouting, internal/routing/{ingress,egress}_reverse_proxy.go, batched_ingress_client.go write, local_store_reader.go Read and the gRPC handlers and clients between them, on bytes. Left out: unknown fields are not passed on; the work of a node whose caller gave up; who handed an envelope to a batching client |

### 3.5 What is not modelled

* The mains (`cmd/*`) beyond configuration, wiring of nodes, TLS and leadership: profiling and health servers, logging. Test helpers (`internal/testing`, `internal/matchers`)
  and examples.
* HTTP/2 below gRPC (the protobuf encoding of the messages is `Wire/`, their framing and size limits `Wire/Frame.v`), TCP, HTTP parsing below the request line, memory limits, and weak memory effects: a concurrent
  step of the model is one locked region or one atomic operation.
* The PromQL evaluation engine (imported from Prometheus). Parsers of libraries that are not in /repo (go-syslog, time, duration, JSON, protobuf) are modelled as published; see 3.4.
* Metrics other than the counters the theorems mention, logging other than the access log.

## 4. Findings

Behaviour of the code found while modelling. Each line names the refuting theorem's property.

Store:
* More than 4000 envelopes around one timestamp overwrite each other, the size drifts, and truncation can then panic (C04, C13, C16).
* A per-source limit below 1 panics on the first write, and an unknown envelope type panics a Get (C16, C69).
* Overlapping runs of equal timestamps hide envelopes (C08). Displaced envelopes let an answer exceed its limit (C67).
* The limit splits groups of equal timestamps (C09), so a walk skips the rest of the group (C44).
* The clock for the cache period can be later than the oldest envelope (C17). Evictions break time order (C68).
* A Put that races truncation is lost (C22). Truncation and Meta can crash on empty storages (C23).

Routing:
* Ranges of unknown addresses go to node 0 (C32). More than 2^32 ranges do not partition, 0 ranges panic (C29).
* Two nodes can forward a read forever (C36). ListRanges answers share memory with later requests (C40).
* Requests without a batch or range crash the node (C71, C72). Overlapping ranges duplicate writes (C73).
* A failed dial shifts the clients of later nodes (C74).

Queries and formats:
* `!=` and regexps are compared as equalities; instance_id and repeated source_id matchers select too much (C59) or too little (C77).
* Different labels can have one series id (C58), which then is out of order (C78).
* A failed page ends a query with partial data and no error (C61). A bar in an expansion asks for other sources (C80).
* A result without a member cannot be decoded (C62).

Ingress:
* Incomplete syslog messages crash the server (C66). Structured data is visited in map order (C81).
* The nozzle drops a batch unreported when its channel is full, and reorders (C63).
* Concurrent senders lose envelopes uncounted in a one-producer buffer (C82).
* The prune consultant converts NaN without a memory total and wraps on huge heaps (C25, C83).

Authorisation and gateway:
* A guid with a bar authorises more than it names (C49). The cache's age counts from the end of the listing (C52).
* Concurrent refreshes ignore a lost compare-and-swap (C85) and can revive revoked keys (C86).
* CAPI can make a listing endless (C87). A token without key id panics (C88).
* Depending on the grpc-gateway version, `sourceId` or `query[x]` in the query bypasses the check (C51, C93).
* Leading zeros are octal (C94). Colons in source ids are cut off (C95). Unknown types differ between HTTP and gRPC (C47).
* Paths with newlines or spaces forge access log lines and fields (C56, C96, C91). Bare IPv6 sources are lost (C92).
* A time of whole milliseconds sent by the client is evaluated a millisecond early for about half of all values (C99).
* `ParseTime` accepts NaN and numbers beyond int64 nanoseconds; `ParseStep` accepts NaN, zero and negative steps (C100).
* The end of a query's window is exclusive: an envelope at exactly the evaluated instant is not found (C106).
* A query that evaluates to a string ends the process (C105), if the engine lets one through.
* An app whose source id contains a bar is left out even of an admin's query for its name (C108).
* The OAuth2 client can send a request with an empty Authorization header: it reads its token twice under the lock, and a refused call clears it without the lock (C110). The unlocked write is also a data race.
* The OAuth2 client forgets its token on every status that is not 2xx, a 404 for instance, though its documentation says only on 401 (C115).
* A scheduler checks once that it leads and then sends tables to all nodes, up to 5 s each: if the lead changes meanwhile, nodes can end up with different tables until the next round (C119).
* A node without a table, as after a restart, accepts writes and drops them without an error (C120); reads are answered Unavailable.
* The leadership check has no timeout and does not close the response body: a hanging endpoint stops the scheduler, and connections leak (not a theorem).
* A table that lists a node twice for a hash, as when two schedulers both assigned it the range, makes that node store every envelope twice (C123): neither SetRanges nor the agent's AddRange removes duplicates.
* A gateway built without `-ldflags` setting `buildVersion` says `"version":""`; the client's Read and Meta over HTTP then always fail (C126). With a prerelease of 2.0.0 the client asks under /v1, which this gateway does not serve (C126).
* getBaseApiPath never stores what it found: every Read and Meta costs a second request (visible in C126_read).
* The reason a query failed is hidden from PromQLRaw's caller for all codes but those that become 400 and 500 (C128).
* A client that is refused can still write forged records to the access log (C134): the record is written before authorisation, with the path decoded.
* Requests are served although they could not be logged (C135): a full disk turns the audit log off without a client noticing.
* A PromQL query at a node whose cache is down is answered with success and no data (C137): the walk behind it gives up after five failing reads without an error.
* The blackbox panics at the first sample it measures unless CfBlackboxEnabled is set (C139): the interface it asks for the VM's uptime is nil.
* The blackbox never logs that a test metric could not be written (C138): `err` is shadowed in the loop.
* The blackbox's window is rounded to whole seconds in the query but not in the number of points expected (C140).
* A node's gRPC server asks for no client certificate (C142): whoever reaches the port can read every source, past the auth proxy, write to it, and set its ranges. The credentials are called mutual, but `ClientAuth` and `ClientCAs` are never set.
* A gauge with metrics `cpu.load` and `cpu_load` answers a query for `cpu_load` with either value, at random (C144).
* A failed CAPI listing replaces a good cached one by the empty list, and counts as one of the three retries (C145): after an outage a user may be refused for a minute what the proxy had already been told they may see.
* A misspelt selector name is sent to the log provider as a nil selector (C147).
* After a source moves to a node with a lower number, Meta goes on reporting the numbers of the node that had it before (C149).
* Two syslog connections that hand over a message at the same moment lose one of them, and it is not counted as dropped (C151): the batching client's buffer supports one writer, the syslog server has one per connection.
* A syslog message that takes longer than the idle timeout to arrive is cut off, however steadily its bytes come in (C152).
* One failing Accept (too many open files) ends the syslog server's listening for good, while the process stays up and its health endpoint answers (C153): `main` starts the server with `go server.Start()`.
* The syslog server's requests are marked LocalOnly (C154): the node it talks to keeps them even when another node has the source, and nobody ever reads them. Only single-node deployments are unaffected.
* The pruner of the proxy's token cache can delete a list that was fetched after it looked (C90): it checks one entry and deletes whatever the token has by then.
* A field that a newer server adds to an answer makes Read and Meta of an older client fail altogether (C156): jsonpb is used without AllowUnknownFields.
* `log_cache_store_size` can stay wrong after two simultaneous writes (C157): `Set(float64(atomic.LoadInt64(&count)))` is not one step, and the earlier reading may be set last. A node that is no longer written to reports the wrong size until it prunes.
* The list of sources (`/api/v1/meta`) has other member names from the gateway (`oldest_timestamp`, zeros written) than through the authorisation proxy (`oldestTimestamp`, zeros left out); `README.md` documents the latter (C161).
* If the gateway's library finds the struct field `XXX_unrecognized` as a query parameter, its bytes follow the request on the wire and override the source id the proxy has checked (C51_hidden_field_refuted, with the wire format).
* The Go client's `grpcRead` dereferences `resp.Envelopes`: a peer that answers a read with the empty message, which is a legal ReadResponse, panics the program that called Read (C167). Over HTTP the same answer is read as no envelopes.
* Five bytes of gRPC framing around an empty message take a log-cache node down: `IngressReverseProxy.Send` ranges over `r.Envelopes.Batch`, and Envelopes is nil when the field is absent (C168). So does a read that names an envelope type outside the enum, which proto3 decodes without complaint (C16, C168). Both need a client certificate.
* Nothing checks NODE_INDEX against NODE_ADDRS. A node with NODE_INDEX 1 and no NODE_ADDRS starts, accepts envelopes, and sends each of them to itself over gRPC for ever; nothing is stored and a read through it never ends (C172_circulates_refuted). Two nodes with exchanged indices lose what is written to them (C172_swapped_refuted).
* setupRouting skips an address that cannot be dialled with `continue`, so the clients of all later addresses move down by one while the routing table keeps its positions (C172_dial_refuted).
* MAX_PER_SOURCE=0 and COUNT=0 are accepted; the first write, and the scheduler's start, panic (C172_zero_refuted, C172_count_refuted). Defaults of `required` fields (ADDR) are never used (C171_required).
* No server or client raises gRPC's default limit of 4 MiB on received messages, while a read may ask for 1000 envelopes of any size (C173). As soon as the envelopes of a page come to more than 4 MiB (1000 of 4.2 kB, or 100 of 42 kB with the default limit) the read fails, and goes on failing until they expire; a Walk with a retrying backoff repeats it for ever. A nozzle batch over the limit is refused whole and lost. Meta, and with it the CLI's listing of sources, fails once the ids with their statistics come to more than 4 MiB.
* Routing hashes are CRC-64, which is linear: whoever chooses source ids can choose the node that has to hold them, for any prefix, by computing eight bytes (C174_reached). Sending logs under such ids loads one node only.
* A token can be respelled (padding, `+` and `/` for `-` and `_`, unused bits) and is still accepted; every spelling has its own entry in the proxy's cache of CAPI answers (C176).
* One malformed message on a syslog connection, one longer than the reader's buffer, or a newline between frames ends the connection: everything after it on that connection is lost, counted as one invalid message (C177).
* A step beyond 292 years is not refused but wraps round: `300y` is a negative step, `600y` is about fifteen years (C179_step_refuted). Times with a zone of `+99:99` or `+-5:30` or an hour of one digit are accepted (C179_taken_refuted).
* An AddRange request of no bytes is accepted and makes the node useless for a scheduler: every later ListRanges fails to encode, and the first RemoveRange ends the process (C180). With golang/protobuf before 1.4 a SetRanges entry without a value does so at once (`ranges.Ranges` of a nil pointer, routing_table.go:83).
* C181: the syslog server accepts a line whose process id, application name, time or text is left out (`<14>1 - - - - - -`, 17 bytes) and then dereferences nil pointers: any peer can end the process. Lines of applications whose name is longer than 48 characters, and lines with times to the nanosecond, are refused, and with them the rest of their connection.

## 5. Wrong programs

`seeded/LOG.jsonl` records edits of the model that mimic realistic bugs, made in a scratch copy: the definition edited, the
edit, the claim it breaks, the theorems that failed, and the theorems that were tightened because they survived.
