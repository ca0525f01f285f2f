{"id": "C01", "title": "Per-source capacity is never exceeded", "statement": "With a per-source limit m >= 1, after any history of writes and memory-pressure truncations no source ever holds (and Meta never reports) more than m envelopes.", "quantifier": "every history of Put and truncate operations, every source id, every limit m >= 1, every truncation quantity and index iteration order", "why_tests_cant": "a test tries a few histories; an off-by-one in the swap branch may only show after particular mixes of eviction and truncation", "anchors": ["internal/cache/store/store.go:insertOrSwap", "internal/cache/store/store.go:removeOldestEnvelope", "internal/cache/store/store.go:Put"]}
{"id": "C02", "title": "Sources are isolated", "statement": "Writing an envelope to one source never changes the answer of any Get on another source, whatever the filters, and never changes another source's meta information.", "quantifier": "every store state, every written envelope, every other source, every query", "why_tests_cant": "only finitely many pairs of sources and queries can be tried", "anchors": ["internal/cache/store/store.go:Put", "internal/cache/store/store.go:getOrInitializeStorage", "internal/cache/store/store.go:Get"]}
{"id": "C03", "title": "A write stores exactly the written envelope and evicts at most the oldest one", "statement": "A Put to a source below its limit adds exactly that envelope and loses nothing; a Put to a source at its limit removes exactly the entry with the smallest storage time of that source and adds the new one. (As long as fewer than 4000 consecutive storage times from the envelope's timestamp are taken.)", "quantifier": "every reachable store state, every envelope, every source", "why_tests_cant": "the content of the tree after an AVL rebalancing depends on the whole insertion history", "anchors": ["internal/cache/store/store.go:insertOrSwap"]}
{"id": "C04", "title": "A write never destroys another stored envelope (general form)", "statement": "For every reachable state, storing an envelope in a source below its limit never removes or overwrites an already stored envelope, even when thousands of envelopes share a timestamp.", "quantifier": "every history, including those with arbitrarily many equal timestamps", "why_tests_cant": "needs more than 4000 equal timestamps to show; tests use a handful", "anchors": ["internal/cache/store/store.go:insertOrSwap"]}
{"id": "C05", "title": "Get is sound", "statement": "Every envelope a Get returns was stored for the requested source, has start <= timestamp < end, has one of the requested types (or no type filter), passes the name filter, and is returned at most as often as it was stored, in storage order (reverse order for descending).", "quantifier": "every store state (including ones with colliding timestamps), every query, every tree shape", "why_tests_cant": "tree traversal with pruning has an unbounded number of shapes and window positions", "anchors": ["internal/cache/store/store.go:Get", "internal/cache/store/store.go:treeAscTraverse", "internal/cache/store/store.go:treeDescTraverse"]}
{"id": "C06", "title": "Get is exact when timestamps are distinct", "statement": "For a source whose envelopes have pairwise distinct timestamps, an ascending Get returns exactly the oldest `limit` envelopes matching window and filters, oldest first; a descending Get returns exactly the newest `limit` matching envelopes, newest first.", "quantifier": "every history with pairwise distinct timestamps per source, every window, limit >= 1, type set, name pattern and direction", "why_tests_cant": "exactness quantifies over all tree shapes and all windows", "anchors": ["internal/cache/store/store.go:Get", "internal/cache/store/store.go:treeAscTraverse", "internal/cache/store/store.go:treeDescTraverse"]}
{"id": "C07", "title": "Get returns an ordered prefix when storage order follows time order", "statement": "Whenever the source's stored envelopes are in time order (equal timestamps allowed), an ascending Get returns a prefix of the list of all matches, and stops short of the complete list only if at least `limit` envelopes were returned.", "quantifier": "every state in which storage order is timestamp order, every query", "why_tests_cant": "same-timestamp runs make the stop test depend on the tree shape", "anchors": ["internal/cache/store/store.go:treeAscTraverse", "internal/cache/store/store.go:isNodeAFudgeSequenceMember"]}
{"id": "C08", "title": "Get returns every match (general form)", "statement": "An ascending Get with a limit larger than the number of stored envelopes returns every stored envelope of the source inside the window.", "quantifier": "every history, including colliding timestamps", "why_tests_cant": "the failing histories need interleaved timestamp collisions", "anchors": ["internal/cache/store/store.go:treeAscTraverse", "internal/cache/store/store.go:insertOrSwap"]}
{"id": "C09", "title": "The limit never splits a group of equal timestamps (general form)", "statement": "When a Get is cut off by its limit, all stored envelopes of the window that share the timestamp of the last returned envelope are in the result, so that a reader can continue from last timestamp + 1 without losing data.", "quantifier": "every history with equal timestamps, every limit", "why_tests_cant": "depends on where rebalancing put the members of the group in the tree", "anchors": ["internal/cache/store/store.go:isNodeAFudgeSequenceMember", "pkg/client/walk.go:Walk"]}
{"id": "C10", "title": "The name filter keeps matching metrics only", "statement": "With a name filter, a gauge comes back with exactly the matching metrics (same values and units, other fields unchanged), counters and timers come back unchanged iff their name matches, and logs, events and untyped envelopes never come back.", "quantifier": "every envelope, every name predicate, every query", "why_tests_cant": "the filter is applied inside the traversal to arbitrary data", "anchors": ["internal/cache/store/store.go:filterByName"]}
{"id": "C11", "title": "Truncation removes exactly the requested number of globally oldest envelopes", "statement": "If the prune consultant asks for q envelopes, truncation removes exactly min(q, stored) envelopes over all sources, no removed envelope has a larger storage time than a remaining one, everything else is untouched, and sources left without envelopes disappear from the store.", "quantifier": "every reachable state, every quantity, every iteration order of the source index", "why_tests_cant": "the heap-driven multi-way merge over all sources has unboundedly many interleavings", "anchors": ["internal/cache/store/store.go:truncate", "internal/cache/store/store.go:BuildExpirationHeap", "internal/cache/store/store.go:removeOldestEnvelope", "internal/cache/store/store.go:ExpirationHeap"]}
{"id": "C12", "title": "The reported store size is the number of stored envelopes", "statement": "After any history in which no run of 4000 storage times is exhausted, the store-size counter equals the total number of stored envelopes over all sources, and never goes negative.", "quantifier": "every such history", "why_tests_cant": "counter drift accumulates over long histories only", "anchors": ["internal/cache/store/store.go:insertOrSwap", "internal/cache/store/store.go:truncate", "internal/cache/store/store.go:removeOldestEnvelope"]}
{"id": "C13", "title": "The reported store size is exact (general form)", "statement": "After any history the store-size counter equals the total number of stored envelopes.", "quantifier": "every history", "why_tests_cant": "needs more than 4000 equal timestamps", "anchors": ["internal/cache/store/store.go:insertOrSwap"]}
{"id": "C14", "title": "Meta accounting", "statement": "For every source: count is the number of stored envelopes, oldest timestamp is the storage time of the oldest one, newest timestamp is the largest timestamp written since the source last appeared (at least 0), and count + expired equals the number of envelopes written since the source last appeared.", "quantifier": "every history without exhausted collision runs, every source", "why_tests_cant": "accounting invariants range over histories", "anchors": ["internal/cache/store/store.go:Meta", "internal/cache/store/store.go:insertOrSwap", "internal/cache/store/store.go:removeOldestEnvelope"]}
{"id": "C15", "title": "The store never panics in single-threaded use", "statement": "With limit >= 1 and no exhausted collision run, no history of Put, Get, Meta and truncate operations panics.", "quantifier": "every such history", "why_tests_cant": "a nil dereference needs a specific state", "anchors": ["internal/cache/store/store.go:insertOrSwap", "internal/cache/store/store.go:truncate", "internal/cache/store/store.go:BuildExpirationHeap"]}
{"id": "C16", "title": "The store never panics in single-threaded use (general form)", "statement": "No history of Put, Get, Meta and truncate operations panics, for any configured limit and any timestamps.", "quantifier": "every history, every limit", "why_tests_cant": "the crash needs counter drift or a zero limit", "anchors": ["internal/cache/store/store.go:insertOrSwap", "internal/cache/store/store.go:truncate"]}
{"id": "C17", "title": "The cache-period clock tracks the oldest stored envelope (general form)", "statement": "After a truncation the timestamp from which the cache period is computed is the storage time of the oldest envelope in the store.", "quantifier": "every history", "why_tests_cant": "depends on the heap layout left behind by the truncation", "anchors": ["internal/cache/store/store.go:truncate", "internal/cache/store/store.go:calculateCachePeriod"]}
{"id": "C18", "title": "Conservation over a history", "statement": "Over any history without exhausted collision runs: envelopes written = envelopes stored + envelopes counted as expired.", "quantifier": "every such history", "why_tests_cant": "accounting over unbounded histories", "anchors": ["internal/cache/store/store.go:insertOrSwap", "internal/cache/store/store.go:truncate"]}
{"id": "C19", "title": "The per-source index is a balanced ordered map", "statement": "After any sequence of insertions and removals the per-source tree is in storage-time order, holds exactly the expected entries, never dereferences nil while rebalancing, and has height at most logarithmic in its size.", "quantifier": "every sequence of tree operations", "why_tests_cant": "rebalancing cases are combinatorial", "anchors": ["internal/cache/store/store.go:insertOrSwap", "internal/cache/store/store.go:removeOldestEnvelope"]}
{"id": "C20", "title": "Capacity holds under every interleaving", "statement": "With limit m >= 1, in every interleaving of concurrent Put, Get, Meta and truncation threads, every storage ever created holds at most m envelopes.", "quantifier": "every schedule of any number of threads", "why_tests_cant": "schedules cannot be enumerated by tests", "anchors": ["internal/cache/store/store.go:Put", "internal/cache/store/store.go:truncate", "internal/cache/store/store.go:getOrInitializeStorage"]}
{"id": "C21", "title": "Without memory pressure no acknowledged write is lost and nothing panics", "statement": "In every interleaving of concurrent Put, Get and Meta threads (no truncation running) nothing panics, every finished Put is in the visible storage of its source or was expired by the per-source limit, and the store size counter is exact.", "quantifier": "every schedule of any number of threads", "why_tests_cant": "schedules", "anchors": ["internal/cache/store/store.go:Put", "internal/cache/store/store.go:getOrInitializeStorage", "internal/cache/store/store.go:Meta"]}
{"id": "C22", "title": "No acknowledged write is lost (with truncation, general form)", "statement": "In every interleaving of Puts with truncation, an envelope whose Put returned is either visible to Get or was counted as expired.", "quantifier": "every schedule", "why_tests_cant": "needs a particular race", "anchors": ["internal/cache/store/store.go:getOrInitializeStorage", "internal/cache/store/store.go:removeOldestEnvelope"]}
{"id": "C23", "title": "No panic under concurrency (general form)", "statement": "No interleaving of Put, Get, Meta and truncation panics.", "quantifier": "every schedule", "why_tests_cant": "needs a particular race", "anchors": ["internal/cache/store/store.go:BuildExpirationHeap", "internal/cache/store/store.go:Meta"]}
{"id": "C24", "title": "Get is atomic per source", "statement": "Under every interleaving, the answer of a Get equals the answer of the sequential Get on the content the source's storage had at one instant between call and return.", "quantifier": "every schedule", "why_tests_cant": "schedules", "anchors": ["internal/cache/store/store.go:Get"]}
{"id": "C25", "title": "Prune quantity is bounded", "statement": "The number of envelopes the prune consultant asks for lies between 0 and the number stored, and is 0 whenever heap use is at or below the configured percentage, for IEEE binary64 arithmetic.", "quantifier": "every heap/total pair, every percentage in [0,100], every count", "why_tests_cant": "floating point rounding must be bounded for all inputs", "anchors": ["internal/cache/store/prune_consultant.go:GetQuantityToPrune"]}
{"id": "C26", "title": "Read request validation", "statement": "A Read is rejected iff (end is set and start > end) or limit > 1000 or limit < 0; an accepted Read queries the store with the default limit 100 when 0, with 'now' as end when 0, and never with a limit outside 1..1000; rejected requests never touch the store.", "quantifier": "every request", "why_tests_cant": "boundaries over the full int64 range", "anchors": ["internal/routing/local_store_reader.go:Read"]}
{"id": "C27", "title": "Type filter ANY", "statement": "A request whose type list contains only ANY (or is empty) is unfiltered; otherwise exactly the listed concrete types are returned.", "quantifier": "every type list", "why_tests_cant": "all lists", "anchors": ["internal/routing/local_store_reader.go:Read"]}
{"id": "C28", "title": "The scheduler's ranges partition the hash space", "statement": "For every range count n with 1 <= n <= 2^32, the ranges the scheduler creates are non-empty, pairwise disjoint and cover every 64-bit hash, so every hash belongs to exactly one range.", "quantifier": "every n in 1..2^32, every 64-bit hash", "why_tests_cant": "2^64 hashes, 2^32 counts", "anchors": ["internal/scheduler/scheduler.go:Start"]}
{"id": "C29", "title": "The scheduler's ranges partition the hash space (any count)", "statement": "For every positive range count accepted by the configuration, the created ranges partition the hash space.", "quantifier": "every positive count", "why_tests_cant": "needs huge counts", "anchors": ["internal/scheduler/scheduler.go:Start"]}
{"id": "C30", "title": "Routing lookup is exact", "statement": "Looking up a source id returns exactly the nodes that own a range containing its hash; looking up many ids at once agrees with looking up each.", "quantifier": "every table content, every hash function, every list of ids", "why_tests_cant": "linear search over arbitrary tables", "anchors": ["internal/routing/routing_table.go:Lookup", "internal/routing/routing_table.go:LookupAll"]}
{"id": "C31", "title": "Setting ranges replaces the table", "statement": "After SetRanges the lookup answers depend only on the last request (any map iteration order), for requests naming known addresses.", "quantifier": "every earlier history, every request, every iteration order", "why_tests_cant": "map order is random", "anchors": ["internal/routing/routing_table.go:SetRanges"]}
{"id": "C32", "title": "Ranges of unknown nodes are not routed to a known node (general form)", "statement": "A range assigned to an address that is not in the node table never makes another node the owner of its hashes.", "quantifier": "every request", "why_tests_cant": "depends on Go zero values", "anchors": ["internal/routing/routing_table.go:SetRanges"]}
{"id": "C33", "title": "Ingress distribution", "statement": "A non-local write batch delivers every envelope exactly once to every owner node of its source id and to no other node, in the original order per node, and marks every forwarded request local-only; a local-only batch is only written locally.", "quantifier": "every batch, every table", "why_tests_cant": "all batches and tables", "anchors": ["internal/routing/ingress_reverse_proxy.go:Send"]}
{"id": "C34", "title": "Egress read routing", "statement": "A read is served by the local node whenever it owns the source id, otherwise forwarded to exactly one owner, and fails as unavailable iff there is no owner.", "quantifier": "every request, every table, every random choice", "why_tests_cant": "all tables and random picks", "anchors": ["internal/routing/egress_reverse_proxy.go:Read"]}
{"id": "C35", "title": "Cluster read-your-writes", "statement": "When all nodes use the same table, a batch sent through any node (all forwards succeeding) and then read through any node is answered by a node that received the write, with at most one forwarding hop.", "quantifier": "every cluster size, table, entry node, source id", "why_tests_cant": "all combinations", "anchors": ["internal/routing/ingress_reverse_proxy.go:Send", "internal/routing/egress_reverse_proxy.go:Read"]}
{"id": "C36", "title": "Reads terminate when tables disagree (general form)", "statement": "A read is forwarded at most once, whatever the routing tables of the nodes.", "quantifier": "every assignment of tables to nodes", "why_tests_cant": "needs inconsistent tables", "anchors": ["internal/routing/egress_reverse_proxy.go:Read"]}
{"id": "C37", "title": "Meta aggregation", "statement": "A non-local Meta answer is the union over all nodes whose query succeeded (the last node winning on equal keys), fails iff no node succeeded; local-only Meta queries the local node only.", "quantifier": "every set of node answers and failures, every cache history", "why_tests_cant": "all failure patterns", "anchors": ["internal/routing/egress_reverse_proxy.go:Meta"]}
{"id": "C38", "title": "Meta cache freshness", "statement": "A Meta answer served from the cache is at most the cache lifetime old and equals the answer computed when it was cached.", "quantifier": "every sequence of requests and clock readings", "why_tests_cant": "histories with time", "anchors": ["internal/routing/egress_reverse_proxy.go:Meta"]}
{"id": "C39", "title": "Orchestrator range set", "statement": "After any history of AddRange and RemoveRange, ListRanges returns the ranges added and not removed (one removal per request, oldest first), in insertion order.", "quantifier": "every history", "why_tests_cant": "histories", "anchors": ["internal/routing/orchestrator.go:AddRange", "internal/routing/orchestrator.go:RemoveRange", "internal/routing/orchestrator.go:ListRanges"]}
{"id": "C40", "title": "ListRanges answers are snapshots (general form)", "statement": "An answer obtained from ListRanges is not changed by later requests.", "quantifier": "every history", "why_tests_cant": "needs slice aliasing after the call", "anchors": ["internal/routing/orchestrator.go:RemoveRange", "internal/routing/orchestrator.go:ListRanges"]}
{"id": "C41", "title": "Static ranges cover the hash space", "statement": "The static lookup of n >= 1 nodes maps every 64-bit hash to exactly one of the n nodes, monotonically.", "quantifier": "every n, every hash", "why_tests_cant": "2^64 hashes", "anchors": ["internal/routing/static_lookup.go"]}
{"id": "C42", "title": "Walk delivers everything once and in order", "statement": "Against a source with distinct timestamps that does not change, Walk delivers the envelopes of the window in ascending order, each exactly once, in non-empty batches, whatever the page sizes; when it stops because the end is reached everything was delivered, and when it stops on an empty answer everything old enough (older than the delay) was. A walk over the store of a node with the default back-off always ends and delivers every stored envelope of the window that matches its filters.", "quantifier": "every content, window, filter, limit, page size, delay and clock", "why_tests_cant": "pagination restart arithmetic for all data", "anchors": ["pkg/client/walk.go:Walk"]}
{"id": "C43", "title": "Walk stays inside its window", "statement": "As long as the server's answers are in time order and start at the requested time (they may fail, be empty or reach beyond the end), Walk delivers only envelopes inside its window, in time order, in non-empty batches that are strictly later than all earlier batches, and every request starts right after the last delivered envelope. For any answers whatsoever no empty batch is delivered and every batch ends before the end time.", "quantifier": "every reader, visitor and back-off behaviour", "why_tests_cant": "adversarial reader", "anchors": ["pkg/client/walk.go:Walk"]}
{"id": "C44", "title": "Walk loses nothing on the store (general form)", "statement": "Walking the store with any limit delivers every stored envelope of the window.", "quantifier": "every history, every limit", "why_tests_cant": "composition of store paging and walk", "anchors": ["pkg/client/walk.go:Walk", "internal/cache/store/store.go:Get"]}
{"id": "C45", "title": "Walk back-off bounds", "statement": "A retrying back-off gives up after exactly its configured number of consecutive failures and an always-done back-off stops on the first empty read.", "quantifier": "every retry count, every reader", "why_tests_cant": "unbounded retries", "anchors": ["pkg/client/walk.go:Backoff"]}
{"id": "C46", "title": "Window moves contiguously", "statement": "The k-th window is [start + k*interval, start + k*interval + width); with interval <= width no instant from the start on is skipped, with width <= interval none is covered twice. Over unchanging sources with distinct timestamps the visitor is given exactly the envelopes of each window.", "quantifier": "every number of ticks, width and interval, every content", "why_tests_cant": "unbounded", "anchors": ["pkg/client/window.go:Window"]}
{"id": "C47", "title": "Client options reach the server unchanged", "statement": "The query string built from read options is decoded by the server to the same start, end, limit, types, direction and name filter; HTTP and gRPC clients ask for the same thing.", "quantifier": "every option list", "why_tests_cant": "all int64 values, decimal printing and parsing", "anchors": ["pkg/client/client.go:Read", "pkg/client/client.go:grpcRead"]}
{"id": "C48", "title": "Read authorisation", "statement": "A read request reaches the backend only if its token was accepted and the user is admin or is authorised for the source id in the path.", "quantifier": "every request, every behaviour of UAA and CAPI", "why_tests_cant": "adversarial requests", "anchors": ["internal/auth/cf_auth_middleware.go:Middleware"]}
{"id": "C49", "title": "Query authorisation", "statement": "A PromQL query reaches the backend only if every source id requested in it expands only to source ids the user is authorised for, for every selector.", "quantifier": "every query, every authorised set", "why_tests_cant": "adversarial queries", "anchors": ["internal/auth/cf_auth_middleware.go:Middleware", "internal/promql/promql.go:ReplaceSourceIdSets"]}
{"id": "C50", "title": "Meta authorisation", "statement": "A non-admin's meta answer contains exactly the entries of the backend answer whose source ids are in the user's authorised list.", "quantifier": "every backend answer, every list", "why_tests_cant": "all data", "anchors": ["internal/auth/cf_auth_middleware.go:onlyAuthorized"]}
{"id": "C51", "title": "The source id checked is the source id read (general form)", "statement": "For every accepted read request the source id the backend reads is the one that was authorised.", "quantifier": "every request including hostile query strings", "why_tests_cant": "hostile query parameter spelling", "anchors": ["internal/auth/cf_auth_middleware.go:Middleware", "pkg/rpc/logcache_v1/egress.pb.gw.go"]}
{"id": "C52", "title": "Authorisation cache soundness", "statement": "IsAuthorized answers true only if CAPI listed the source id for that very token at most the cache lifetime ago; CAPI failures never grant access.", "quantifier": "every history of requests, clock readings and CAPI answers", "why_tests_cant": "histories with time and failures", "anchors": ["internal/auth/capi_client.go:IsAuthorized"]}
{"id": "C53", "title": "CAPI paging is complete and confined", "statement": "A successful resource listing contains the resources of every page up to the last, and every page is requested from the configured host; a failing page fails the listing.", "quantifier": "every page chain", "why_tests_cant": "unbounded chains", "anchors": ["internal/auth/capi_client.go:doPaginatedResourceRequest"]}
{"id": "C54", "title": "Token acceptance", "statement": "A token is accepted only if its signature verified under a key UAA published for its key id, and it is not expired; admin iff it has the logs.admin or doppler.firehose scope.", "quantifier": "every token, every key set, every clock", "why_tests_cant": "adversarial tokens", "anchors": ["internal/auth/uaa_client.go:Read"]}
{"id": "C55", "title": "Key refresh is throttled", "statement": "In sequential use, UAA is asked for keys at most once per refresh interval.", "quantifier": "every history with time", "why_tests_cant": "time", "anchors": ["internal/auth/uaa_client.go:RefreshTokenKeys"]}
{"id": "C56", "title": "Access log records are single lines (general form)", "statement": "One request produces exactly one line in the access log.", "quantifier": "every request", "why_tests_cant": "hostile paths", "anchors": ["internal/auth/access_log.go:String"]}
{"id": "C57", "title": "Metric names are sanitised to valid identifiers", "statement": "Sanitising any name yields only letters, digits and underscores with no leading digit, and is idempotent. Text is translated character for character: letters and digits stay (digits not at the front), any other character becomes one underscore.", "quantifier": "every string", "why_tests_cant": "all strings", "anchors": ["internal/promql/promql.go:SanitizeMetricName"]}
{"id": "C58", "title": "Every selected sample lands in the series of its labels", "statement": "Points are grouped into series such that two points share a series iff they have the same labels, and no point is lost or duplicated.", "quantifier": "every list of points with labels", "why_tests_cant": "all label sets", "anchors": ["internal/promql/promql.go:seriesSetBuilder"]}
{"id": "C59", "title": "Label matchers are honoured (general form)", "statement": "Only points whose labels satisfy all matchers of the selector, including != and =~, are selected.", "quantifier": "every selector", "why_tests_cant": "all matcher kinds", "anchors": ["internal/promql/promql.go:Select"]}
{"id": "C60", "title": "Series seek", "statement": "Seek(t) positions an iterator at the first point with time >= t.", "quantifier": "every sorted series, every t", "why_tests_cant": "all series", "anchors": ["internal/promql/promql.go:Seek"]}
{"id": "C61", "title": "Query data is complete or an error is reported (general form)", "statement": "A data read for a query returns all envelopes of the window or an error.", "quantifier": "every failure pattern of the cache", "why_tests_cant": "failures in the middle", "anchors": ["internal/promql/data_reader/walking_data_reader.go:Read"]}
{"id": "C62", "title": "JSON time/value conversion round trip", "statement": "Prometheus-style JSON encoding of a query result decodes to the same result.", "quantifier": "every query result", "why_tests_cant": "all values", "anchors": ["pkg/marshaler/marshaler.go"]}
{"id": "C63", "title": "Nozzle batching", "statement": "The nozzle forwards every received envelope exactly once and in order, in batches no larger than its limit, leaving nothing behind when it flushes.", "quantifier": "every arrival and tick schedule", "why_tests_cant": "schedules", "anchors": ["internal/nozzle/nozzle.go:envelopeBatcher"]}
{"id": "C64", "title": "Bounded buffer accounting", "statement": "Every envelope put in the nozzle's ring buffer is either delivered once in order or counted as dropped.", "quantifier": "every interleaving of writer and reader", "why_tests_cant": "schedules", "anchors": ["internal/nozzle/nozzle.go", "internal/routing/batched_ingress_client.go"]}
{"id": "C65", "title": "Syslog conversion", "statement": "A well-formed syslog message is converted to an envelope with the message's app name, time, instance and payload; malformed numbers are counted invalid and never sent.", "quantifier": "every parsed message", "why_tests_cant": "all messages", "anchors": ["internal/syslog/server.go:convertToEnvelope"]}
{"id": "C66", "title": "Malformed syslog input never crashes the server (general form)", "statement": "No syslog input makes the server panic.", "quantifier": "every parsed message", "why_tests_cant": "absent fields", "anchors": ["internal/syslog/server.go:convertToEnvelope"]}
{"id": "C67", "title": "The limit bounds the answer (general form)", "statement": "A Get never returns more envelopes than its limit.", "quantifier": "every history, window, limit", "why_tests_cant": "depends on tree shape and collision runs", "anchors": ["internal/cache/store/store.go:Get"]}
{"id": "C68", "title": "In-order writes read back in order", "statement": "If the envelopes of a source are written in time order (equal timestamps allowed), a Get returns them in time order.", "quantifier": "every history of in-order writes", "why_tests_cant": "interplay of collisions and eviction", "anchors": ["internal/cache/store/store.go:Put", "internal/cache/store/store.go:Get"]}
{"id": "C69", "title": "An unknown envelope type in a read request does not crash the node (general form)", "statement": "A Read naming an envelope type outside the API's enum is answered or rejected, not a crash.", "quantifier": "every request", "why_tests_cant": "open enum values", "anchors": ["internal/cache/store/store.go:checkEnvelopeType", "internal/routing/local_store_reader.go:Read"]}
{"id": "C70", "title": "Scheduled ranges reach the workers that hold them", "statement": "When the scheduler (1 to 2^32 ranges) publishes the workers' ranges, every 64-bit hash lies in exactly one scheduled range and is routed exactly once to exactly the workers holding that range, in every node that accepted the table.", "quantifier": "every range count up to 2^32, every assignment of ranges to known workers, every hash", "why_tests_cant": "the hash space and the assignments cannot be enumerated", "anchors": ["internal/scheduler/scheduler.go:Start", "internal/scheduler/scheduler.go:convertWorkerState", "internal/routing/routing_table.go:SetRanges", "internal/routing/routing_table.go:Lookup"]}
{"id": "C71", "title": "A write request without a batch does not crash the node (general form)", "statement": "A Send whose envelope batch is missing is answered or rejected, not a crash.", "quantifier": "every request, every routing table", "why_tests_cant": "depends on absent protobuf messages", "anchors": ["internal/routing/ingress_reverse_proxy.go:Send"]}
{"id": "C72", "title": "A range request without a range does not crash the node (general form)", "statement": "AddRange and RemoveRange requests whose range is missing never crash the node, then or later.", "quantifier": "every history of requests", "why_tests_cant": "needs histories with absent protobuf messages", "anchors": ["internal/routing/orchestrator.go:AddRange", "internal/routing/orchestrator.go:RemoveRange"]}
{"id": "C73", "title": "A write reaches each owner once whatever the table (general form)", "statement": "A batch sent through a node delivers each envelope at most once to each node, whatever ranges were published.", "quantifier": "every published assignment", "why_tests_cant": "needs assignments listing a range twice, e.g. after a repeated AddRange", "anchors": ["internal/routing/ingress_reverse_proxy.go:Send", "internal/routing/routing_table.go:Lookup"]}
{"id": "C74", "title": "Clients are aligned with node numbers (general form)", "statement": "The client a node uses for node number i talks to node number i, whichever peers could be dialled at start.", "quantifier": "every set of failing dials", "why_tests_cant": "depends on which dials fail", "anchors": ["internal/cache/log_cache.go:setupRouting"]}
{"id": "C75", "title": "The store never deadlocks", "statement": "In every interleaving of Put, Get, Meta and truncation, as long as the process has not crashed and some call has not returned, some call can make a step.", "quantifier": "every schedule of any number of threads", "why_tests_cant": "a deadlock needs a particular interleaving of lock acquisitions", "anchors": ["internal/cache/store/store.go:Put", "internal/cache/store/store.go:Get", "internal/cache/store/store.go:Meta", "internal/cache/store/store.go:removeOldestEnvelope", "internal/cache/store/store.go:BuildExpirationHeap"]}
{"id": "C76", "title": "Without memory pressure the store is linearizable", "statement": "In every interleaving of Put, Get and Meta, each Get answers as a sequential store would that has executed, one at a time in order of return, the calls that returned before it, and a source with no Put in progress holds exactly what that sequential store holds.", "quantifier": "every schedule of any number of threads", "why_tests_cant": "schedules", "anchors": ["internal/cache/store/store.go:Put", "internal/cache/store/store.go:Get", "internal/cache/store/store.go:getOrInitializeStorage"]}
{"id": "C77", "title": "Every sample that satisfies a selector is selected (general form)", "statement": "Every envelope of a requested source and window that carries the metric and whose labels satisfy all matchers contributes a point to the series with its labels.", "quantifier": "every selector, every answer of the cache", "why_tests_cant": "all matcher kinds, labels and envelopes", "anchors": ["internal/promql/promql.go:Select", "internal/promql/promql.go:hasLabels"]}
{"id": "C78", "title": "The points of a series are in time order (general form)", "statement": "If the cache answers reads in time order, the points of every series handed to the query engine are in time order.", "quantifier": "every selector, every answer of the cache, every map iteration order", "why_tests_cant": "depends on map iteration order and on label values", "anchors": ["internal/promql/promql.go:Select", "internal/promql/promql.go:getSeriesID"]}
{"id": "C79", "title": "The source ids of a query", "statement": "The source ids extracted from a query for authorisation are exactly those some selector of it asks for, by equality or as an alternative of a regexp; evaluating a selector reads exactly the sources it asks for and fails if one of those reads fails.", "quantifier": "every expression tree, every selector", "why_tests_cant": "nesting of expressions is unbounded", "anchors": ["internal/promql/promql.go:ExtractSourceIds", "internal/promql/promql.go:addSourceIDsFromLabelMatcher", "internal/promql/promql.go:Select"]}
{"id": "C80", "title": "Rewriting source ids in a query (general form)", "statement": "When names are replaced by related source ids, every selector of the new query asks for exactly the related ids of what it asked for before and is otherwise unchanged.", "quantifier": "every expression tree, every table of related ids", "why_tests_cant": "nesting of expressions is unbounded", "anchors": ["internal/promql/promql.go:ReplaceSourceIdSets", "internal/promql/promql.go:replaceSourceIdsInRegexpMatcher"]}
{"id": "C81", "title": "The outcome of a syslog message depends on the message only (general form)", "statement": "Two runs of the server on the same message log the same envelope or reject it both times.", "quantifier": "every message, every iteration order of its structured data", "why_tests_cant": "depends on map iteration order inside the runtime", "anchors": ["internal/syslog/server.go:convertToEnvelope"]}
{"id": "C82", "title": "The batching client delivers or counts (general form)", "statement": "Envelopes handed to the client a node uses towards a peer reach that peer once, in order and marked as local writes, or are counted as dropped.", "quantifier": "every schedule of callers and of the sending loop, every answer of the peer", "why_tests_cant": "schedules and races between callers", "anchors": ["internal/routing/batched_ingress_client.go:Send", "internal/routing/batched_ingress_client.go:start", "internal/routing/batched_ingress_client.go:write"]}
{"id": "C83", "title": "Pruning asks for the excess share (general form)", "statement": "When heap use exceeds the configured percentage, the consultant asks for the fraction of the stored envelopes by which the heap exceeds it, up to rounding to whole envelopes.", "quantifier": "every heap/total pair, every percentage, every count", "why_tests_cant": "floating point rounding and integer wrap must be bounded for all inputs", "anchors": ["internal/cache/store/prune_consultant.go:GetQuantityToPrune"]}
{"id": "C84", "title": "A time written with three decimals survives being read and written again", "statement": "A point's time, formatted with three decimals by the PromQL JSON encoding, read back as a float64 by the decoder and formatted again with three decimals, is the same text: re-encoding a decoded result never moves a timestamp.", "quantifier": "every finite float64 time", "why_tests_cant": "It is a statement about rounding over 2^64 floating-point values; sampling a few timestamps says nothing about values whose nearest thousandth lies near a rounding boundary.", "anchors": ["pkg/marshaler/marshaler.go:assemblePoint", "pkg/marshaler/marshaler.go:disassemblePoint"]}
{"id": "C85", "title": "Key refresh is throttled under concurrency (general form)", "statement": "However many requests with unknown keys arrive at the same time, UAA is asked for keys at most once per refresh interval; at least, a refresh that starts after another one recorded its time waits a full interval after it.", "quantifier": "every schedule of requests, refreshes and clock readings", "why_tests_cant": "schedules", "anchors": ["internal/auth/uaa_client.go:RefreshTokenKeys"]}
{"id": "C86", "title": "Revoked keys are forgotten (general form)", "statement": "Once UAA no longer lists a signing key and the refreshes under way have ended, tokens signed with it are no longer accepted; a refresh that runs on its own leaves exactly the keys UAA listed.", "quantifier": "every schedule of refreshes, every key list", "why_tests_cant": "races between refreshes", "anchors": ["internal/auth/uaa_client.go:RefreshTokenKeys"]}
{"id": "C87", "title": "Listing a user's sources ends (general form)", "statement": "A listing of a user's resources makes finitely many requests; at least, it asks only for the pages CAPI names, in order, so it ends if they do.", "quantifier": "every chain of pages", "why_tests_cant": "unbounded chains", "anchors": ["internal/auth/capi_client.go:doPaginatedResourceRequest"]}
{"id": "C88", "title": "Malformed tokens cannot crash a request (general form)", "statement": "Whatever is in the Authorization header, the handler answers the request and does not panic.", "quantifier": "every header, every key set, every schedule", "why_tests_cant": "adversarial tokens", "anchors": ["internal/auth/uaa_client.go:Read"]}
{"id": "C89", "title": "The authorisation decision for a read is exact", "statement": "With a good token and nothing cached, an admin's read is passed on, any other user's is passed on exactly if CAPI lists the source for that user, and otherwise answered 404.", "quantifier": "every request, token, key set and CAPI behaviour", "why_tests_cant": "all answers of CAPI", "anchors": ["internal/auth/cf_auth_middleware.go:Middleware", "internal/auth/capi_client.go:IsAuthorized"]}
{"id": "C90", "title": "Within the cache lifetime no request is made to CAPI (general form)", "statement": "A read by a user whose cached listing is not over its lifetime and has the source is passed on without asking CAPI. Whatever else the proxy does, once a complete list has been obtained for a token, a later question about a source on it, within the lifetime of the cache, asks CAPI nothing and is not refused.", "quantifier": "every request, token and cache content; every interleaving of requests, key refreshes and the pruner", "why_tests_cant": "all cache states and all schedules", "anchors": ["internal/auth/capi_client.go:IsAuthorized", "internal/auth/capi_client.go:pruneTokens"]}
{"id": "C91", "title": "An access log record identifies its request (general form)", "statement": "Two access log records are the same line only if they were written for requests with the same method, path and query, host, source and destination and the same time.", "quantifier": "every pair of requests", "why_tests_cant": "all texts which could collide in the record", "anchors": ["internal/auth/access_log.go:String"]}
{"id": "C92", "title": "The access log records the client's address (general form)", "statement": "The source address and port in an access log record are those of the connection, or the forwarded ones when the header is present.", "quantifier": "every request and address form", "why_tests_cant": "all address spellings, IPv6 among them", "anchors": ["internal/auth/access_log.go:extractRemoteInfo"]}
{"id": "C93", "title": "The query checked by the proxy is the query run", "statement": "Through the authorisation proxy and the gateway, a PromQL query request that is forwarded asks the backend only for source ids its owner is authorised for (or an admin), whatever other parameters it carries.", "quantifier": "every gateway library choice, request, query string, map iteration order and execution of the proxy", "why_tests_cant": "which of two parameters the gateway uses can depend on map iteration order, and no list of query strings covers all spellings of a parameter", "anchors": ["internal/auth/cf_auth_middleware.go: handlePromQLRequest", "pkg/rpc/logcache_v1/promql.pb.gw.go: request_PromQLQuerier_InstantQuery_0, request_PromQLQuerier_RangeQuery_0", "internal/gateway/gateway.go: listenAndServe"]}
{"id": "C94", "title": "Parameters of an HTTP read mean what they say", "statement": "The read request the backend receives for GET /api/v1/read/<id> is exactly what the documented parameters say: decimal numbers, types by name or number, booleans, text; and a request whose parameters say nothing is refused.", "quantifier": "every source id a path can carry and every query string", "why_tests_cant": "the parameters are free text; tests try a few spellings", "anchors": ["pkg/rpc/logcache_v1/egress.pb.gw.go: request_Egress_Read_0, filter_Egress_Read_0", "pkg/rpc/logcache_v1/egress.pb.go: ReadRequest"]}
{"id": "C95", "title": "Every source id can be read over HTTP", "statement": "GET /api/v1/read/<id> reads the source id <id> and no other.", "quantifier": "every source id", "why_tests_cant": "a source id is any text, including slashes, dots and colons which paths give a meaning to", "anchors": ["pkg/rpc/logcache_v1/egress.pb.gw.go: pattern_Egress_Read_0", "internal/gateway/gateway.go: listenAndServe"]}
{"id": "C96", "title": "Access log fields carry their values (general form)", "statement": "In an access log record each of the fields request id, request, method, source and destination address and port occurs once and holds the value it is named after.", "quantifier": "every request", "why_tests_cant": "hostile text in the path", "anchors": ["internal/auth/access_log.go: String, template"]}
{"id": "C97", "title": "Parameters of an HTTP query mean what they say", "statement": "With the documented parameters, an instant or range query and a meta request reach the backend exactly as the request says; a local_only that is not a boolean is refused.", "quantifier": "every query string with the documented parameters, every gateway library choice and map order", "why_tests_cant": "the parameters are free text", "anchors": ["pkg/rpc/logcache_v1/promql.pb.gw.go: request_PromQLQuerier_InstantQuery_0, request_PromQLQuerier_RangeQuery_0", "pkg/rpc/logcache_v1/egress.pb.gw.go: request_Egress_Meta_0"]}
{"id": "C98", "title": "Times in query answers are exact", "statement": "The time of a sample or point in the answer to a PromQL query, a number of milliseconds, is written as exactly that number of seconds with three decimals.", "quantifier": "every time up to 4*10^15 milliseconds either way", "why_tests_cant": "the rounding of a float64 division followed by a rounding to three decimals must be bounded for all values", "anchors": ["internal/promql/promql.go:formatPromqlTime", "internal/promql/promql.go:toInstantQueryResult"]}
{"id": "C99", "title": "A query is evaluated at the instant the client asked for (general form)", "statement": "A PromQL query sent by the Go client with a time of whole milliseconds is evaluated at that millisecond; at least, a time reaches the server within about half a millisecond, and whole seconds exactly.", "quantifier": "every time within 285 years of 1970, every correct parser of decimals", "why_tests_cant": "two float64 roundings and a truncation for every millisecond", "anchors": ["pkg/client/client.go:formatDecimalTimeWithMillis", "internal/promql/parsing.go:ParseTime"]}
{"id": "C100", "title": "Numbers given as times and steps mean what they say or are refused (general form)", "statement": "A number of seconds given as time or step of a query is taken for that many seconds; numbers no duration can express, and steps that are not positive, are refused.", "quantifier": "every text, every correct parser of decimals", "why_tests_cant": "free text, and float64 values at the edge of int64", "anchors": ["internal/promql/parsing.go:ParseTime", "internal/promql/parsing.go:ParseStep"]}
{"id": "C101", "title": "Failed reads are not taken for missing data", "statement": "If any read made for a PromQL query fails, or one of its selectors names no source id, the query fails with such an error, whatever the evaluation engine made of the missing data, and the failure is counted once; otherwise nothing is counted.", "quantifier": "every engine, every query, every outcome of every read, every map order", "why_tests_cant": "needs every behaviour of the engine after an error, in every order of reads", "anchors": ["internal/promql/promql.go:InstantQuery", "internal/promql/promql.go:RangeQuery", "internal/promql/promql.go:Select"]}
{"id": "C102", "title": "A query reads the sources it asks for, in its window, and nothing else", "statement": "Each read made for a PromQL query is for a source id that the selection being served asks for, from one second before the selected window to its end, for gauges, counters and timers only; each source asked for is read once unless a read fails; and if the engine only uses the query's selectors, all sources read are among those extracted for authorisation.", "quantifier": "every engine, query, read outcome and map order", "why_tests_cant": "all expressions and engine behaviours", "anchors": ["internal/promql/promql.go:Select", "internal/promql/promql.go:Querier", "internal/promql/promql.go:ExtractSourceIds"]}
{"id": "C103", "title": "The answer is what the engine found", "statement": "Unless a read failed, a PromQL query that was understood ends as its evaluation did: an error is passed on; a scalar, vector or matrix is answered with the same series, points, labels, values and (three decimal) times, in the same order.", "quantifier": "every result of every engine", "why_tests_cant": "all values of all shapes", "anchors": ["internal/promql/promql.go:toInstantQueryResult", "internal/promql/promql.go:toRangeQueryResult", "internal/promql/promql.go:formatPromqlTime"]}
{"id": "C104", "title": "A query that is not understood is refused and reads nothing", "statement": "If the time, start, end, step or expression is not understood the query fails with that error without reading anything; without a time the current time in whole seconds is used.", "quantifier": "every text, clock and library", "why_tests_cant": "free text", "anchors": ["internal/promql/promql.go:InstantQuery", "internal/promql/promql.go:RangeQuery"]}
{"id": "C105", "title": "A query ends the process only if it evaluates to what no answer can hold", "statement": "An instant query panics only if it evaluates to a string, a range query only if it evaluates to something that is not a matrix.", "quantifier": "every query and engine", "why_tests_cant": "every evaluation result", "anchors": ["internal/promql/promql.go:toInstantQueryResult", "internal/promql/promql.go:toRangeQueryResult"]}
{"id": "C106", "title": "What is stored is found by queries (general form)", "statement": "A selection for a metric finds the stored gauges, counters and timers of the sources it asks for within its window, up to and including its end, whose labels satisfy the selector, and nothing else.", "quantifier": "every history of the store, every plain selector and window, every map order", "why_tests_cant": "histories, windows and selectors are unbounded", "anchors": ["internal/promql/promql.go:Select", "internal/promql/data_reader/walking_data_reader.go:Read", "internal/cache/log_cache.go:setupRouting"]}
{"id": "C107", "title": "Access is refused for a reason only", "statement": "A read is answered with 404 only if it carries no token, a token there is reason to doubt, or the token of a user who is no admin and whose list of sources, as CAPI gave it, lacks the source id; a refusal from memory is based on a list whose lifetime is not over, and only after the list was asked for four times.", "quantifier": "every interleaving of requests, refreshes and pruning; every answer of UAA and CAPI; every token, source id and clock", "why_tests_cant": "interleavings and answers are unbounded", "anchors": ["internal/auth/capi_client.go:IsAuthorized", "internal/auth/cf_auth_middleware.go:Middleware", "internal/auth/uaa_client.go:Read"]}
{"id": "C108", "title": "A query is expanded to everything its user may see (general form)", "statement": "In the query the proxy passes on, every selector asks for the source ids it named and for all apps CAPI lists under those names, except those refused to a user who is no admin, and nothing else about the query changes.", "quantifier": "every interleaving; every query, token and answer of CAPI", "why_tests_cant": "interleavings, queries and answers are unbounded", "anchors": ["internal/auth/cf_auth_middleware.go:Middleware", "internal/auth/capi_client.go:GetRelatedSourceIds", "internal/promql/promql.go:ReplaceSourceIdSets"]}
{"id": "C109", "title": "A request goes through the OAuth2 client once", "statement": "A request with an Authorization header is sent once and unchanged, and its answer returned. For any other at most one token is asked for; then the request is sent once and its answer returned, whatever its status; it is not sent only if the token was needed and not given, and then an error is returned.", "quantifier": "every interleaving of any number of concurrent calls, every answer of both servers", "why_tests_cant": "interleavings of calls sharing a client", "anchors": ["pkg/client/oauth2_http_client.go:Do", "pkg/client/oauth2_http_client.go:getToken", "pkg/client/oauth2_http_client.go:doTokenRequest"]}
{"id": "C110", "title": "The Authorization header is a token of the OAuth2 server (general form)", "statement": "The header the OAuth2 client adds is the type and text of a token the OAuth2 server gave before.", "quantifier": "every interleaving of concurrent calls, every answer", "why_tests_cant": "needs two calls to interleave at two particular accesses", "anchors": ["pkg/client/oauth2_http_client.go:Do", "pkg/client/oauth2_http_client.go:getClientToken", "pkg/client/oauth2_http_client.go:getUserToken"]}
{"id": "C111", "title": "Tokens are shared", "statement": "However many calls share an OAuth2 client, it gets at most one token more than the number of its requests that were refused.", "quantifier": "every number of concurrent calls and every interleaving", "why_tests_cant": "a count over all interleavings", "anchors": ["pkg/client/oauth2_http_client.go:Do", "pkg/client/oauth2_http_client.go:getClientToken"]}
{"id": "C112", "title": "A refused token is given up", "statement": "Once a call whose token was refused has returned, calls made afterwards use a token obtained by a call that had not returned by then.", "quantifier": "every interleaving", "why_tests_cant": "interleavings of refusals with token requests", "anchors": ["pkg/client/oauth2_http_client.go:Do"]}
{"id": "C113", "title": "Calls through the OAuth2 client do not block each other for ever", "statement": "While calls are under way one of them can go on, and each takes a bounded number of steps, so every call ends if both servers answer.", "quantifier": "every interleaving", "why_tests_cant": "absence of deadlock in all interleavings", "anchors": ["pkg/client/oauth2_http_client.go:Do", "pkg/client/oauth2_http_client.go:getClientToken", "pkg/client/oauth2_http_client.go:getUserToken"]}
{"id": "C114", "title": "Credentials are presented intact", "statement": "Every request for a token presents exactly the configured credentials, whatever characters they contain: those of the user if there is one, else the client's as basic authentication.", "quantifier": "every configuration, every interleaving", "why_tests_cant": "all texts", "anchors": ["pkg/client/oauth2_http_client.go:getClientToken", "pkg/client/oauth2_http_client.go:getUserToken"]}
{"id": "C115", "title": "A new token is only asked for after a 401 (general form)", "statement": "As documented, the OAuth2 client gets a new token only when a request came back with a 401; at least, only after one came back with a status that is not 2xx.", "quantifier": "every interleaving and every status", "why_tests_cant": "all statuses and interleavings", "anchors": ["pkg/client/oauth2_http_client.go:Oauth2HTTPClient", "pkg/client/oauth2_http_client.go:Do"]}
{"id": "C116", "title": "Only the leader changes nodes", "statement": "A scheduler adds or removes a range at a node only after that very call was told that it leads, and sends tables only after the decision to do so was told that it leads, at an instant when it was the elected leader; one that is never elected changes nothing, and without any leader the nodes only change by restarting.", "quantifier": "every number of schedulers, every behaviour of the orchestrator library, every election history, every interleaving and failure", "why_tests_cant": "interleavings of elections, schedulers and failures", "anchors": ["internal/scheduler/scheduler.go:Start", "internal/scheduler/scheduler.go:comm.Add", "internal/scheduler/scheduler.go:comm.Remove", "cmd/scheduler/main.go"]}
{"id": "C117", "title": "Each decision sends one table to every node once", "statement": "Between two decisions a scheduler sends the table it decided on to each configured node exactly once, in order, and nothing if it was not the leader; a node that fails does not keep the others from being sent theirs.", "quantifier": "every decision, every pattern of failures", "why_tests_cant": "all failure patterns", "anchors": ["internal/scheduler/scheduler.go:setRemoteTables", "internal/scheduler/scheduler.go:Start"]}
{"id": "C118", "title": "Nodes reached by the same decision route alike", "statement": "Nodes that received the table of one decision, with no other scheduler sending since and without restarting, give the same owners in the same order for every hash.", "quantifier": "every history, every hash", "why_tests_cant": "all tables, hashes and iteration orders", "anchors": ["internal/scheduler/scheduler.go:setRemoteTables", "internal/routing/routing_table.go:SetRanges"]}
{"id": "C119", "title": "One leader at a time is enough for agreement (general form)", "statement": "If at most one scheduler leads at any instant, no call fails and no node restarts, then all nodes route alike once no scheduler is sending any more.", "quantifier": "every history", "why_tests_cant": "interleavings of elections with publications", "anchors": ["internal/scheduler/scheduler.go:Start", "internal/scheduler/scheduler.go:setRemoteTables"]}
{"id": "C120", "title": "An accepted write is handed to a node (general form)", "statement": "When Send returns without error, every envelope of the batch has been handed to the node of some owner of its source id; in particular a node that has restarted only accepts writes again once it knows the table.", "quantifier": "every batch, every history of restarts and tables", "why_tests_cant": "crash points", "anchors": ["internal/routing/ingress_reverse_proxy.go:Send", "internal/routing/routing_table.go:Lookup", "internal/cache/log_cache.go"]}
{"id": "C121", "title": "The published table is what the nodes answered", "statement": "After a publication by a scheduler whose library reports what the nodes last answered, the owners of a hash at a node are exactly the nodes that last answered to hold a range containing it, which they did hold when asked; and if every range of the schedule was in an answer, every source id has an owner.", "quantifier": "every history, every hash", "why_tests_cant": "all histories and hashes", "anchors": ["internal/scheduler/scheduler.go:comm.List", "internal/scheduler/scheduler.go:convertWorkerState", "internal/scheduler/scheduler.go:Start"]}
{"id": "C122", "title": "An answer holds nothing that was not written", "statement": "Whatever writes, reads and prunings a store has seen, a read of a source presents only envelopes written to that source and selected by the read, and none more often than it was written.", "quantifier": "every history of the store, every source and query", "why_tests_cant": "histories are unbounded", "anchors": ["internal/cache/store/store.go:Put", "internal/cache/store/store.go:Get"]}
{"id": "C123", "title": "A cluster answers only what was sent to it, and nothing twice (general form)", "statement": "Whichever node of a cluster answers a read, and whatever happened before (envelopes delayed, reordered, regrouped or lost, tables replaced, nodes pruned and restarted), every envelope in the answer was sent to the cluster before for that source and is selected by the read; and none is answered more often than it was sent.", "quantifier": "every number of nodes, every history of sends, arrivals, losses, tables, prunings, restarts and reads", "why_tests_cant": "histories and interleavings are unbounded", "anchors": ["internal/routing/ingress_reverse_proxy.go:Send", "internal/routing/batched_ingress_client.go", "internal/cache/log_cache.go:setupRouting", "internal/routing/local_store_reader.go:Read"]}
{"id": "C124", "title": "A user reads nothing but what was sent for sources they may see (general form)", "statement": "An envelope that reaches a user through the authorisation proxy, the gateway and the cluster was sent to the cluster under the source id in the path of the user's request, which CAPI listed for that user unless they are an admin, and the token is vouched for by UAA.", "quantifier": "every interleaving at the proxy, every answer of UAA and CAPI, every request, every history of the cluster", "why_tests_cant": "composition of all components over all histories", "anchors": ["internal/auth/cf_auth_middleware.go:Middleware", "pkg/rpc/logcache_v1/egress.pb.gw.go:request_Egress_Read_0", "internal/routing/local_store_reader.go:Read"]}
{"id": "C125", "title": "A query reads nothing but sources its user may see (general form)", "statement": "Every read that a PromQL query, sent through the authorisation proxy and the gateway, makes of the cluster is for a source id that CAPI listed for the user, unless they are an admin.", "quantifier": "every interleaving at the proxy, every query, every engine that selects by the query's selectors", "why_tests_cant": "composition of all components over all queries", "anchors": ["internal/auth/cf_auth_middleware.go:Middleware", "pkg/rpc/logcache_v1/promql.pb.gw.go", "internal/promql/promql.go:Select"]}
{"id": "C126", "title": "The client finds the API of the server's version", "statement": "Read and Meta over HTTP first ask for the server's info page and then for /api/v1/... if the server's version, a semantic version, is 2.0.0 or later (prereleases of 2.0.0 are earlier), for /v1/... if it is earlier or there is no info page (404); otherwise they fail without asking for data. Through this gateway, Read and Meta then return what the backend answers to the request the caller asked for.", "quantifier": "every server, status, body and version text, every source, start and options, every outcome of the backend and every lost exchange", "why_tests_cant": "all version texts and server behaviours, and the composition of client and gateway", "anchors": ["pkg/client/client.go:Read", "pkg/client/client.go:Meta", "pkg/client/client.go:getBaseApiPath", "pkg/client/client.go:LogCacheVersion", "internal/gateway/gateway.go:handleInfoEndpoint", "cmd/gateway/config.go:buildVersion"]}
{"id": "C127", "title": "The uptime the client reports is the gateway's", "statement": "LogCacheVMUptime returns the uptime of the gateway's VM, whatever it is, and an error with -1 if the exchange fails or the server does not say; never a wrong number.", "quantifier": "every int64 uptime, every version without quotes, backslashes and control characters, every server", "why_tests_cant": "all numbers and all answers", "anchors": ["pkg/client/client.go:LogCacheVMUptime", "internal/gateway/gateway.go:handleInfoEndpoint"]}
{"id": "C128", "title": "Failing queries are reported as failing, with the reason", "statement": "PromQLRaw and PromQLRangeRaw through the gateway report success only for a query the backend answered, showing that answer; a failing query gives an error or a result with status error, and the caller is told the backend's reason.", "quantifier": "every query, options, outcome of the backend, error code and message, and every lost exchange", "why_tests_cant": "all error codes and messages, through two programs", "anchors": ["pkg/client/client.go:PromQLRaw", "pkg/client/client.go:PromQLRangeRaw", "internal/gateway/gateway.go:httpErrorHandler", "pkg/rpc/logcache_v1/promql.pb.gw.go"]}
{"id": "C129", "title": "A query means and yields the same over gRPC and over HTTP", "statement": "With the same options, in whatever number and order, the client's PromQL and PromQLRange send the same request to the backend over gRPC and over HTTP through the gateway, and return an answer that says the same.", "quantifier": "every query text and every list of options; every answer", "why_tests_cant": "all texts and option lists, through URL encoding, gateway decoding and two result encodings", "anchors": ["pkg/client/client.go:PromQL", "pkg/client/client.go:PromQLRange", "pkg/client/client.go:grpcPromQL", "pkg/client/client.go:grpcPromQLRange", "pkg/marshaler/marshaler.go"]}
{"id": "C130", "title": "A read gives what the node holds, and nothing is missing within the bound", "statement": "With distinct timestamps per source: a successful read at a node of a running cluster gives exactly the first of the selected envelopes, in the order asked for, of what the node holds of the source: what arrived since its last restart, the earliest making room when the bound per source is exceeded, less what pruning took from the earliest. If no more arrived than the bound and nothing was pruned, nothing that arrived is missing.", "quantifier": "every history of the cluster, every node, source and read", "why_tests_cant": "histories are unbounded", "anchors": ["internal/cache/store/store.go:Put", "internal/cache/store/store.go:Get", "internal/cache/log_cache.go:setupRouting"]}
{"id": "C131", "title": "Everything sent is accounted for", "statement": "As long as senders find one node, the same, as the owner of a source, every envelope sent to the cluster for that source has arrived at that node, is lost, or is on its way to it, each exactly once; none arrives at another node.", "quantifier": "every history of the cluster, every source", "why_tests_cant": "histories are unbounded", "anchors": ["internal/routing/ingress_reverse_proxy.go:Send", "internal/cache/log_cache.go:setupRouting"]}
{"id": "C132", "title": "Once everything has arrived all of it can be read through any node", "statement": "If all nodes agree on the owner of a source, nothing of it was lost or is still on its way, the owner was neither restarted nor pruned, and no more was sent than its bound per source, then a read through any node gives exactly the selected envelopes among all that were sent, whichever nodes they were sent through, in time order, after at most one hop.", "quantifier": "every history of the cluster, every source with distinct timestamps, every node and read", "why_tests_cant": "histories are unbounded", "anchors": ["internal/routing/egress_reverse_proxy.go:Read", "internal/routing/ingress_reverse_proxy.go:Send", "internal/cache/store/store.go:Get"]}
{"id": "C133", "title": "Every request is in the access log before it is looked at", "statement": "At any moment, for every request that the proxy is authorising, has refused or has passed on, one record was written to the access log, just one, with that request's data; if no write failed the log file holds these records and nothing else.", "quantifier": "every interleaving of the proxy's goroutines, every request", "why_tests_cant": "all schedules", "anchors": ["internal/auth/access_middleware.go:ServeHTTP", "internal/auth/access_logger.go:LogAccess", "internal/cfauthproxy/cf_auth_proxy.go:Start"]}
{"id": "C134", "title": "The access log has one line per request", "statement": "The log file has as many lines as requests came past it, and each request that was passed on to the gateway has a line of its own, that begins where a line begins.", "quantifier": "every interleaving, every set of requests", "why_tests_cant": "all schedules and all request texts", "anchors": ["internal/auth/access_log.go:String", "internal/auth/access_middleware.go:ServeHTTP"]}
{"id": "C135", "title": "Whether the access log can be written makes no difference to clients", "statement": "What clients are answered and what the proxy asks of UAA, CAPI and the gateway is the same whether the access log is written, fails to be written at every write, or is not configured.", "quantifier": "every interleaving of the proxy", "why_tests_cant": "all schedules", "anchors": ["internal/auth/access_middleware.go:ServeHTTP", "internal/auth/access_middleware.go:NewNullAccessMiddleware"]}
{"id": "C136", "title": "The gateway is asked for what the client asked for", "statement": "A request that is passed on reaches the gateway under the path the client asked for and with the query the authorisation middleware decided on, for a gateway address with or without a closing slash.", "quantifier": "every interleaving, every request", "why_tests_cant": "all request texts", "anchors": ["internal/cfauthproxy/cf_auth_proxy.go:reverseProxy"]}
{"id": "C137", "title": "A query whose data cannot be read fails", "statement": "A PromQL query at a node whose cache cannot be read, or is too slow to be read, fails and is counted as a failure; it is not answered as if there were no data.", "quantifier": "every query, every engine, every answer of the cache to every read, every reading that runs out of its five seconds", "why_tests_cant": "all inputs and all failure patterns of the reads", "anchors": ["internal/promql/data_reader/walking_data_reader.go:Read", "internal/promql/promql.go:Select", "pkg/client/walk.go:Walk"]}
{"id": "C138", "title": "The blackbox writes one test metric per interval", "statement": "Every tick of the blackbox writes one gauge named blackbox_test_metric with value 10 ms and the timestamp of the interval the tick falls in; it is tried again until a try succeeds, five times at most; a missed interval is warned of, and a metric that could not be written is logged.", "quantifier": "every sequence of clock readings, every pattern of failing tries, every interval", "why_tests_cant": "all clocks and all failure patterns", "anchors": ["internal/blackbox/blackbox.go:StartEmittingTestMetrics", "internal/blackbox/blackbox.go:emitTestMetrics"]}
{"id": "C139", "title": "The blackbox reports what it measured and keeps running", "statement": "Each sample reports the reliabilities that could be measured, in one envelope, or nothing if none could be measured or the VM is known to be up for less than ten minutes; no configuration makes the blackbox end at a sample.", "quantifier": "every configuration, every outcome of the measurements and every uptime", "why_tests_cant": "all combinations of outcomes", "anchors": ["cmd/blackbox/main.go:main", "internal/blackbox/blackbox.go:EmitMeasuredMetrics"]}
{"id": "C140", "title": "The reliability is the part of the test metrics that arrived", "statement": "The reported reliability is the number of test metrics read back divided by the number due in the window, rounded to a double: 1 exactly if all were read back, less if some are missing; if nothing could be read there is no number.", "quantifier": "every window, interval and answer of the cluster", "why_tests_cant": "all lengths of windows and intervals, with floating point", "anchors": ["internal/blackbox/blackbox.go:Calculate", "internal/blackbox/blackbox.go:ExpectedSamples", "internal/blackbox/blackbox.go:CountMetricPoints"]}
{"id": "C141", "title": "Components talk to genuine nodes only", "statement": "Every component (node, gateway, nozzle, scheduler, syslog server, blackbox) hands data or queries only to a process that has the key of a certificate for the name log-cache, issued by the configured CA, over TLS 1.2 or later with one of two suites; it accepts every such process, and does not start without its CA, certificate and key.", "quantifier": "every content of the files, every peer, every judgement of the certificate library", "why_tests_cant": "all peers and files; tests use one set of certificates", "anchors": ["internal/tls/tls.go:NewMutualTLSConfig", "internal/tls/tls.go:Credentials", "cmd/log-cache/main.go:main"]}
{"id": "C142", "title": "Nodes serve genuine components only", "statement": "A node answers reads and takes writes only from callers that have the key of a certificate issued by the configured CA.", "quantifier": "every caller", "why_tests_cant": "all callers", "anchors": ["cmd/log-cache/main.go:main", "internal/tls/tls.go:NewMutualTLSConfig"]}
{"id": "C143", "title": "The proxy talks to genuine services", "statement": "Unless verification is switched off by configuration, the proxy takes token keys from UAA, application lists from CAPI and data from the gateway only over TLS 1.2 or later from peers with a certificate of the configured CA for the address called, for CAPI for the configured name.", "quantifier": "every content of the files, every peer", "why_tests_cant": "all peers and files", "anchors": ["cmd/cf-auth-proxy/main.go:buildUAAClient", "cmd/cf-auth-proxy/main.go:buildCAPIClient", "internal/cfauthproxy/cf_auth_proxy.go:NewTransportWithRootCA"]}
{"id": "C144", "title": "The same query over the same data has the same answer (general form)", "statement": "A PromQL selector evaluated twice over the same envelopes gives the same series with the same points, whatever order the maps involved are iterated in.", "quantifier": "every selector, every content of the cache, every iteration order of the maps", "why_tests_cant": "Go's map orders are random: a test sees a few of them", "anchors": ["internal/promql/promql.go:Select", "internal/promql/promql.go:checkMapForMetric", "internal/promql/promql.go:seriesSetBuilder"]}
{"id": "C145", "title": "An outage of CAPI does not outlast itself (general form)", "statement": "A user is refused a source only because CAPI says so: not because CAPI failed earlier and works again, and not while a list CAPI gave for their token, still within the cache lifetime, has the source.", "quantifier": "every interleaving of the proxy, every pattern of CAPI failures", "why_tests_cant": "all interleavings of requests, failures and clock readings", "anchors": ["internal/auth/capi_client.go:IsAuthorized", "internal/auth/capi_client.go:AvailableSourceIDs"]}
{"id": "C146", "title": "The number of a sample is the number of the envelope", "statement": "A counter's sample in a PromQL answer is the double nearest to its total, exactly the total up to 2^53, and never smaller than the sample of a smaller total. A timer's sample is the double nearest to its duration in nanoseconds.", "quantifier": "every counter total, every pair of start and stop times of a timer", "why_tests_cant": "the conversions round and wrap; a test tries a few numbers far from where they do", "anchors": ["internal/promql/promql.go:Select"]}
{"id": "C147", "title": "The nozzle asks for the envelope types configured", "statement": "The request the nozzle opens its stream with asks for exactly the envelope types whose names are configured, for the configured shard and with preferred tags.", "quantifier": "every list of configured names", "why_tests_cant": "a test tries the list it was written for", "anchors": ["internal/nozzle/nozzle.go:buildBatchReq", "internal/nozzle/nozzle.go:selectorTypes"]}
{"id": "C148", "title": "What a node accepts for a peer is sent before long", "statement": "Once no more envelopes are handed to the client a node uses towards a peer, a bounded number of turns of its loop later every envelope has been sent to the peer, in order, or is counted as dropped, and nothing waits in the buffer or the batch.", "quantifier": "every history of callers and of the loop, every answer of the peer, every buffer and batch size", "why_tests_cant": "an envelope stuck in a partial batch or behind a lapped slot shows up only after particular histories", "anchors": ["internal/routing/batched_ingress_client.go:Send", "internal/routing/batched_ingress_client.go:start", "internal/routing/batched_ingress_client.go:write"]}
{"id": "C149", "title": "What is said about sources is true (general form)", "statement": "The count, oldest, newest and expired numbers Meta gives for a source are those of the envelopes the cluster holds for it, and a user is only told about sources they may see.", "quantifier": "every history of the cluster (writes, losses, table changes, pruning, restarts), every history of Meta calls, every user", "why_tests_cant": "depends on histories across nodes and on what was cached when", "anchors": ["internal/routing/egress_reverse_proxy.go:remoteMeta", "internal/cache/store/store.go:Meta", "internal/auth/cf_auth_middleware.go:Handler"]}
{"id": "C150", "title": "Query strings mean what they spell", "statement": "The parameters which the gateway and the proxy take from the query string of a request are exactly those it spells: pieces between & and ;, key and value cut at the first =, + for a space, %XX for a byte with hexadecimal digits of either case; repeated parameters keep their order and a malformed piece is skipped without changing the others.", "quantifier": "every query string, byte for byte", "why_tests_cant": "a unit test tries a few strings; the claim is for every byte string, including malformed escapes", "anchors": ["internal/auth/cf_auth_middleware.go:Handler", "internal/gateway/gateway.go:listenAndServe"]}
{"id": "C151", "title": "What the syslog server receives is sent on or counted (general form)", "statement": "Whatever connections there are and however they interleave, every message counted as ingress is sent to Log Cache, once and in the order received, or is counted as dropped, or is still waiting; every error and unusable message is counted as invalid; nothing else is sent.", "quantifier": "every number of connections, every interleaving of their goroutines with the batching client, every sequence of messages", "why_tests_cant": "goroutines interleave inside the buffer; a test cannot choose where", "anchors": ["internal/syslog/server.go:handleConnection", "internal/syslog/server.go:parseListenerCallback", "internal/routing/batched_ingress_client.go:Send"]}
{"id": "C152", "title": "Idle syslog connections are closed, busy ones are not (general form)", "statement": "A syslog connection is closed by the server exactly when nothing has arrived on it for the idle timeout.", "quantifier": "every history of connections, arrivals and the clock", "why_tests_cant": "depends on when bytes arrive relative to the deadline", "anchors": ["internal/syslog/server.go:setReadDeadline", "internal/syslog/server.go:handleConnection"]}
{"id": "C153", "title": "A running syslog server goes on serving (general form)", "statement": "As long as the process is up it accepts new connections and handles the messages on the open ones, whatever the other connections do.", "quantifier": "every history of connections, messages and failures of Accept", "why_tests_cant": "all histories, including failures of the operating system", "anchors": ["internal/syslog/server.go:Start", "cmd/syslog-server/main.go:main"]}
{"id": "C154", "title": "What the syslog server accepts can be read (general form)", "statement": "What the syslog server has received of a source and sent on can be read from the cluster, through every node.", "quantifier": "every run of the syslog server, every run of the cluster it feeds, whichever node it was given the address of", "why_tests_cant": "the error needs a cluster and a syslog server at once; their tests use a spy for each other", "anchors": ["cmd/syslog-server/main.go:main", "internal/routing/batched_ingress_client.go:write", "internal/routing/ingress_reverse_proxy.go:Send"]}
{"id": "C155", "title": "What is read over HTTP is what the node answered", "statement": "Read and Meta over HTTP return exactly the envelopes and metadata the node answered with, every field of them: payloads of any bytes, the whole range of 64-bit numbers, NaN and infinities, any UTF-8 text; whether the JSON was written by the gateway or, for Meta, by the proxy.", "quantifier": "every list of envelopes and every metadata protobuf can carry, every text of them byte for byte", "why_tests_cant": "the text passes two encoders and two decoders with their own rules for quotes, numbers, bytes and omitted fields; a test tries a few envelopes", "anchors": ["pkg/client/client.go:Read", "pkg/client/client.go:Meta", "internal/gateway/gateway.go:listenAndServe", "internal/auth/cf_auth_middleware.go:Handler"]}
{"id": "C156", "title": "Clients read the answers of newer servers (general form)", "statement": "A client can read the answer of a server that sends fields the client does not know; it ignores them.", "quantifier": "every answer, every unknown field", "why_tests_cant": "ranges over answers no present server gives", "anchors": ["pkg/client/client.go:Read"]}
{"id": "C157", "title": "A node's metrics account for its history (general form)", "statement": "Whatever calls run at the same time: log_cache_ingress is the number of writes begun, log_cache_egress the number of envelopes reads have given out, ingress equals what is stored plus log_cache_expired once no call is under way, and log_cache_store_size is then the number stored.", "quantifier": "every interleaving of any number of writes, reads, Metas and truncations", "why_tests_cant": "the numbers are updated beside the data, without its locks; a test cannot choose the interleaving", "anchors": ["internal/cache/store/store.go:Put", "internal/cache/store/store.go:insertOrSwap", "internal/cache/store/store.go:Get", "internal/cache/store/store.go:truncate"]}
{"id": "C158", "title": "Those who may not see anything are told nothing", "statement": "To a request whose token is not vouched for by UAA the authorisation proxy gives an answer that follows from the request alone, whatever is stored or listed anywhere, and it asks neither CAPI nor the gateway on its behalf; a user is answered 404 for every source they may not read, whether it exists or not; the proxy's own statuses are 404 and 502, the latter only for a vouched user whose sources cannot be fetched.", "quantifier": "every request, history and interleaving of requests, every answer of UAA, CAPI and the gateway", "why_tests_cant": "two worlds must be compared for every request and every interleaving", "anchors": ["internal/auth/cf_auth_middleware.go:Middleware", "internal/auth/uaa_client.go:Read"]}
{"id": "C159", "title": "The HTTP status names what happened", "statement": "The gateway answers 200 exactly if the node answered and the answer could be written; a failure of the node has the HTTP status documented for its gRPC code, an unknown code and an unwritable answer 500, a bad parameter 400, an unknown path 404.", "quantifier": "every request, every outcome of the node with any code", "why_tests_cant": "the codes and the paths are unbounded", "anchors": ["internal/gateway/gateway.go:httpErrorHandler", "internal/gateway/gateway.go:listenAndServe"]}
{"id": "C160", "title": "Any program can read the envelopes", "statement": "Every answer 200 to a read over HTTP is a JSON document {envelopes: {batch: [...]}} with one object per envelope, in the node's order, each having exactly the documented members: timestamps and counters as quoted decimal numbers, payloads in base 64, NaN and infinities by name, tags and metrics by their keys, and one of log, counter, gauge, timer, event.", "quantifier": "every list of envelopes a node can answer with", "why_tests_cant": "the claim is about the text, for every content of every envelope; a round trip through the project's own client cannot see a name changed on both sides", "anchors": ["internal/gateway/gateway.go:listenAndServe", "api/v1/egress.proto"]}
{"id": "C161", "title": "The list of sources has the documented shape (general form)", "statement": "An answer to GET /api/v1/meta is {meta: {source: {count, expired, oldestTimestamp, newestTimestamp}}} with quoted numbers, one entry per source, as README.md documents.", "quantifier": "every set of sources and numbers", "why_tests_cant": "the claim is about the text, for every set of sources", "anchors": ["internal/auth/cf_auth_middleware.go:Middleware", "internal/gateway/gateway.go:listenAndServe", "README.md"]}
{"id": "C162", "title": "The proxy starts only with UAA's keys and keeps them through an outage", "statement": "The authorisation proxy starts serving only after UAA answered 200 with a list of RSA keys, and then it knows exactly these; while UAA gives no such list, refreshing changes no key; a list with an unusable key in it loses no key; a refresh that comes too soon asks nobody, changes nothing and is no error.", "quantifier": "every answer of UAA, every earlier set of keys", "why_tests_cant": "ranges over all answers and all earlier states", "anchors": ["cmd/cf-auth-proxy/main.go:main", "internal/auth/uaa_client.go:RefreshTokenKeys"]}
{"id": "C163", "title": "What a process receives over gRPC is what was sent", "statement": "Every request and response of the ingress, egress and orchestration services and every PromQL request is received with the same numbers, texts, maps and lists that were sent, whatever they are; a message is refused by its sender exactly if a text in it is not UTF-8.", "quantifier": "every message with numbers of their Go types, up to the size of memory", "why_tests_cant": "ranges over all messages", "anchors": ["pkg/rpc/logcache_v1/egress.pb.go:ReadRequest", "pkg/rpc/logcache_v1/ingress.pb.go:SendRequest", "pkg/rpc/logcache_v1/orchestration.pb.go:SetRangesRequest", "api/v1/egress.proto"]}
{"id": "C164", "title": "Peers of other versions and languages are understood", "statement": "A message means the same in whatever order its fields and map entries come; fields that are not known, or have another type, are skipped; every field has the number and type documented in the .proto files.", "quantifier": "every message, every order of fields, every unknown field", "why_tests_cant": "ranges over all field sequences", "anchors": ["api/v1/egress.proto", "api/v1/ingress.proto", "api/v1/orchestration.proto", "api/v1/promql.proto", "pkg/rpc/logcache_v1/egress.pb.go:ReadRequest"]}
{"id": "C165", "title": "What a node was sent it can pass on and serve", "statement": "A batch put together from any envelopes that were received, or from what a name filter leaves of them, can be encoded, and is received by the next process as it is: no envelope that came in can make a forwarded batch or an answer fail.", "quantifier": "every byte string that was received as a request, every selection of envelopes, every name filter", "why_tests_cant": "ranges over all received bytes", "anchors": ["internal/routing/ingress_reverse_proxy.go:Send", "internal/routing/local_store_reader.go:Read", "pkg/rpc/logcache_v1/ingress.pb.go:SendRequest"]}
{"id": "C166", "title": "The gateway gets the query answer that the node computed", "statement": "An answer to a PromQL query that a node sends over gRPC is received with the same points, in order, with the same labels, whatever they are, and the page the gateway shows is the one that belongs to the node's answer; it is lost exactly if a time, a label name or a label value is not UTF-8; fields have the documented numbers.", "quantifier": "every scalar, vector and matrix with any doubles, any labels and any number of samples and points", "why_tests_cant": "ranges over all answers", "anchors": ["pkg/rpc/logcache_v1/promql.pb.go:PromQL_InstantQueryResult", "internal/promql/promql.go:toInstantQueryResult", "internal/promql/promql.go:toRangeQueryResult", "internal/gateway/gateway.go:listenAndServe", "api/v1/promql.proto"]}
{"id": "C167", "title": "A Go client over gRPC returns the node's answer and never crashes its caller (general form)", "statement": "Read, Meta, PromQL and PromQLRange with a gRPC connection return what the node answers to the very request the arguments and options describe, or an error if there is none; whatever the peer answers, the calling program is not crashed.", "quantifier": "every source, start, list of options and query, every behaviour of the node, every answer of a peer", "why_tests_cant": "ranges over all requests and all answers, byte for byte", "anchors": ["pkg/client/client.go:grpcRead", "pkg/client/client.go:grpcMeta", "pkg/client/client.go:grpcPromQL", "pkg/client/client.go:grpcPromQLRange"]}
{"id": "C168", "title": "Whatever bytes clients send, a node stays up and answers (general form)", "statement": "A node is sent any sequence of byte strings on its gRPC port, by anybody: it stays up, refuses what is no message without changing anything, answers every acceptable read with bytes that the receiver decodes to envelopes sent earlier under that source id - exactly the ones it holds and the request selects if their timestamps differ - and answers Meta.", "quantifier": "every sequence of byte strings sent to Send, Read and Meta, interleaved with pruning, every bound per source, every routing, every cluster history for the encodability of answers", "why_tests_cant": "ranges over all byte strings and all histories", "anchors": ["internal/cache/log_cache.go:setupRouting", "internal/routing/ingress_reverse_proxy.go:Send", "internal/routing/egress_reverse_proxy.go:Read", "internal/routing/local_store_reader.go:Read", "internal/routing/local_store_reader.go:Meta", "pkg/rpc/logcache_v1"]}
{"id": "C169", "title": "The proxy reads the documents of UAA and CAPI for what they say", "statement": "UAA's key documents, token payloads and CAPI's pages are read as documented, whatever other members they have and in whatever order: the listed keys, the scopes and the expiry (exact for whole seconds, less than a second off for other numbers), the resources and the next page. Whatever the text, nothing is read that is not there: every scope, guid, key comes from a text in an array of that name, and a document with a value of the wrong kind is refused. So a read is passed on only if the signed payload itself has an expiry not a second past and an administrator's scope, or a CAPI document lists the source id.", "quantifier": "every JSON text, every tree of the documented shape with any other members, every number of JSON, every execution of the proxy", "why_tests_cant": "ranges over all documents and all executions", "anchors": ["internal/auth/uaa_client.go: unmarshalTokenKeys, decodeToken, UAAClient.Read", "internal/auth/capi_client.go: doResourceRequest, resource"]}
{"id": "C170", "title": "JSON is read as RFC 8259 defines it", "statement": "Where Log Cache takes in JSON \u2014 the documents of UAA and CAPI in the proxy, the gateway's answers in the Go client \u2014 the reader accepts exactly the texts of the grammar of RFC 8259 (blanks, literals, numbers, strings with their escapes, arrays, objects) and takes each for the one tree it stands for: escapes are what they spell, two UTF-16 surrogates are one character, a lone surrogate and a byte that belongs to no UTF-8 character become U+FFFD. Everything else is refused. A reader of a stream reads the value the stream begins with, unless a character of numbers follows it. What the gateway writes is such a text, and it stands for the tree that was written.", "quantifier": "all texts (byte strings of any length, any nesting), all trees", "why_tests_cant": "The texts are infinitely many, most of them never written by the service itself: every placement of blanks, every escape, every malformed byte sequence. A test can only try some.", "anchors": ["pkg/client/client.go:Read", "internal/auth/uaa_client.go:RefreshTokenKeys", "internal/auth/capi_client.go:doResourceRequest", "pkg/marshaler/marshaler.go:Marshal"]}
{"id": "C171", "title": "A process starts exactly with the settings its environment gives", "statement": "Each command (log-cache, scheduler, gateway, nozzle, syslog-server, cf-auth-proxy, blackbox) builds its configuration from environment variables: a variable that is set gives its field the value its text says (a number in range, a duration, a list between commas without the blanks around its elements), one that is not set leaves the default, and the process refuses to start if a required one is missing, naming all that are missing, or if a text says nothing of the field's kind. A node gets its address, limit, index and list of addresses this way (its own address when there is no list), a scheduler its count, replication factor, interval and addresses.", "quantifier": "every environment (function from names to texts) and every field of the seven configurations", "why_tests_cant": "The configurations range over all texts in all combinations; the commands have no tests of it.", "anchors": ["cmd/log-cache/config.go: LoadConfig", "cmd/scheduler/config.go: LoadConfig", "cmd/gateway/config.go", "cmd/nozzle/config.go", "cmd/syslog-server/config.go", "cmd/cf-auth-proxy/config.go", "cmd/blackbox/config.go", "cmd/log-cache/main.go: main"]}
{"id": "C172", "title": "Nodes whose settings are accepted keep what they are sent and find it again (general form)", "statement": "Log-cache nodes that start, each with its NODE_INDEX and the NODE_ADDRS of the cluster, deliver an envelope accepted by any of them to the nodes that own its source and to no other, in one further message each; what was written through one node is then read through any other.", "quantifier": "every list of addresses, every assignment of settings that the processes accept, every routing table, batch, order of arrival and history of sends, arrivals and table changes", "why_tests_cant": "Tests start nodes that are configured correctly; the wiring depends on settings no code checks against each other.", "anchors": ["internal/cache/log_cache.go: New", "internal/cache/log_cache.go: setupRouting", "cmd/log-cache/main.go: main", "internal/routing/ingress_reverse_proxy.go: Send", "internal/routing/egress_reverse_proxy.go: Read"]}
{"id": "C173", "title": "What a node has accepted can be read back, whatever its size (general form)", "statement": "Envelopes that a node has accepted are returned by a read that selects them, with any limit the API allows, and Meta lists the sources it holds: the size of an answer does not decide whether it arrives. (gRPC frames a message with its length and refuses to receive one of more than 4 MiB, a default that no component changes.)", "quantifier": "every message, every history of calls on a node, every read and every collection of sources, of every size", "why_tests_cant": "The refusal depends on the sum of the sizes of up to 1000 envelopes or of all source ids; tests use envelopes of a few bytes.", "anchors": ["internal/cache/log_cache.go: setupRouting", "internal/cache/store/store.go: Get", "internal/cache/store/store.go: Meta", "pkg/client/client.go: grpcRead", "pkg/client/walk.go: Walk", "internal/nozzle/nozzle.go: envelopeWriter", "cmd/log-cache/main.go: main"]}
{"id": "C174", "title": "Every source id has one place in the cluster, fixed by its bytes, and ids are spread evenly", "statement": "The hash by which nodes route a source is the standard CRC-64 of its id, so all nodes, whatever their version, send it to the same place; every id falls into exactly one of the scheduler's ranges, and has an owner once these are published. Ids of one length that differ only within eight bytes in a row never have the same hash; every hash is that of exactly one of the ids that continue a given text by eight bytes, so each of n ranges has an equal share of them (2^64/n, up to n).", "quantifier": "every source id (string of bytes), every number of ranges up to 2^32, every prefix and every hash value", "why_tests_cant": "There are 2^64 hashes and infinitely many ids; tests look at a few.", "anchors": ["internal/cache/log_cache.go: setupRouting", "internal/routing/routing_table.go: Lookup", "internal/scheduler/scheduler.go: Start"]}
{"id": "C175", "title": "A request is redirected at most once, to the one plain path that names the same place", "statement": "A request whose path is written with empty, '.' or '..' segments or without the leading slash is answered by a redirect, and only such a request is. The target is the one plain path (every name after one slash) that names the same place as the path asked for - empty and '.' segments stay, '..' goes up, and stays at the root - and that ends in a slash exactly if the path asked for does. A request to that target is never redirected again, and what the proxy forwards is never redirected by the gateway.", "quantifier": "all paths (any bytes, any number of segments), all parameters, all schedules of the proxy", "why_tests_cant": "Tests send two or three unclean paths; whether cleaning ever loops, changes what is asked for, or differs between the two servers depends on every string.", "anchors": ["internal/auth/cf_auth_middleware.go: Middleware", "internal/gateway/gateway.go: listenAndServe"]}
{"id": "C176", "title": "A token is believed only for what was signed, whatever text is sent", "statement": "A token in the compact form of RFC 7515 whose header names RS256 and a key id is believed under a key exactly if its signature is one, under that key, of the RFC's signing input. Conversely, whatever text is sent as a token: if a request is passed on because of it, there are a header naming RS256 and the id of a key UAA answered with, and the very payload whose scopes and expiry were used, whose signing input was signed under that key. Respelling a token's parts in padded base 64 changes nothing. A request panics only if the header names RS256 and has no text as key id; a header without an algorithm is refused.", "quantifier": "all byte strings as tokens, all headers and payloads, all keys and RSA verifiers, all schedules of the proxy", "why_tests_cant": "Tests use a handful of tokens made by the library itself; forged, respelled and malformed ones form an unbounded set of strings.", "anchors": ["internal/auth/uaa_client.go: Read, trimBearer", "internal/auth/uaa_client.go: decodeToken"]}
{"id": "C177", "title": "The messages framed on a syslog connection are the messages stored, however the bytes arrive (general form)", "statement": "A sender writes messages to a TLS syslog connection, each with its length in decimal and a space in front. Every message framed this way is handed on, in order, once, as soon as its last byte has arrived, however the bytes were cut into packets; nothing that was not framed is handed on; one malformed message does not cost the ones after it.", "quantifier": "All byte sequences, all ways of cutting them, connections that stay open or end anywhere, all buffer sizes, all message parsers", "why_tests_cant": "A test writes a few whole frames; where the bytes are cut, what precedes a frame and where the connection ends cannot be enumerated.", "anchors": ["internal/syslog/server.go handleConnection", "internal/syslog/server.go parseListener"]}
{"id": "C178", "title": "Memory comes back down to the configured limit", "statement": "A node may use a configured percentage of the machine's memory. When its heap is above that, the truncation that runs every half second removes the oldest envelopes so that the heap comes down to the limit: if everything that is not a stored envelope takes at most half of what is allowed and envelopes take between lo and hi bytes, each pass shrinks the excess over the limit (beyond four envelopes) by at least the factor 1 - lo/(2 hi). At or below the limit nothing is removed, and envelopes of one size are not pruned more than two below it.", "quantifier": "All histories of writes, reads and truncations, all sizes of envelopes within the bounds, all percentages, memory sizes up to 2^53 bytes, all numbers of passes", "why_tests_cant": "A test looks at one pass with chosen numbers; convergence is about every state and arbitrarily many passes, in floating point.", "anchors": ["internal/cache/store/store.go truncationLoop", "internal/cache/store/store.go truncate", "internal/cache/store/prune_consultant.go GetQuantityToPrune", "internal/cache/memory_analyzer.go Memory"]}
{"id": "C179", "title": "Times and steps written as text mean what they say (general form)", "statement": "The times and the step of a query may be given as text. A time of RFC 3339 is the instant it names: the date in the Gregorian calendar counted in days from 1 January 1970, the time of day, the part of a second and the zone. A step that is a whole number of ms, s, m, h, d, w or y is that long. Any other text is refused.", "quantifier": "All texts; all dates, zones and fractions; all numbers and units", "why_tests_cant": "There are unboundedly many texts; a test has four times and a handful of steps. Leap years, zones, overflow and near misses of the grammar are outside it.", "anchors": ["internal/promql/parsing.go ParseTime", "internal/promql/parsing.go ParseStep", "internal/promql/parsing.go ParseDuration"]}
{"id": "C180", "title": "The control service of a node: additions, removals, lists and tables of ranges, as bytes on its port (general form)", "statement": "A node's orchestration service takes bytes. Bytes that are no request are refused and change nothing. A request that says which range it means never ends the process, and the exact requests that do are those that leave the range, or the value of a table's entry, out. ListRanges answers with the ranges added and not removed, oldest first, whatever other calls run at the same time, unless a removal comes between the call and the encoding of its answer; even then it answers with as many ranges as there were, each of which was added. SetRanges decides the routes, whatever they were. The scheduler's requests, as bytes, have the effect its own model assumes.", "quantifier": "All histories of calls with any bytes, all interleavings of handlers with the encoding of answers, all growth policies of slices, both behaviours of protobuf for a map entry without a value", "why_tests_cant": "Unit tests call the agent's methods with well-formed structs, one at a time; bytes without a range, and a removal between handler and encoder, are not among them.", "anchors": ["internal/routing/orchestrator.go AddRange", "internal/routing/orchestrator.go RemoveRange", "internal/routing/orchestrator.go ListRanges", "internal/routing/routing_table.go SetRanges", "pkg/rpc/logcache_v1/orchestration.pb.go", "internal/scheduler/scheduler.go comm"]}
{"id": "C181", "title": "The messages on a syslog connection: every RFC 5424 line arrives as the envelope it says (general form)", "statement": "A line sent to the syslog server in an octet counted frame is accepted exactly when it is a message of RFC 5424's grammar (in UTF-8, with times to the microsecond). An accepted line with a time, an application name, a process id and either text or one known structured data element is stored as one envelope: its time, the application as source id, the instance from the process id, and the text without surrounding white space or the metric with its name and values as written, escapes resolved; the server goes on.", "quantifier": "all byte strings sent as messages, all sequences of framed messages, all priorities, times, names, process ids, parameters and texts; all map iteration orders; all outcomes of sending; all buffer sizes", "why_tests_cant": "the grammar has unboundedly many texts, and which ones are refused, truncated, or end the process depends on every field; tests send a handful of lines", "anchors": ["internal/syslog/server.go:handleConnection", "internal/syslog/server.go:parseListener", "internal/syslog/server.go:convertToEnvelope"]}
{"id": "C182", "title": "A line written to the syslog port is read back over HTTP", "statement": "Messages written in frames to a connection of the syslog server, sent on to a node in whatever batches among whatever other calls, are what a client reading that application's name through the gateway is given: those the options ask for, each with the time, instance, tags and text or metric its message says, in time order, up to the limit. For one log line the client gets exactly that line, without the white space around its text. Otherwise an HTTP exchange was lost, or the answer is larger than a gRPC connection takes (4 MiB).", "quantifier": "all framed RFC 5424 messages, all ways of batching them, all other calls to the node without truncation, all read options the API accepts, all orders of maps, all payload bytes, any gateway with that node behind it", "why_tests_cant": "the whole way crosses a text grammar, protobuf, gRPC frames, the store, JSON and URL escaping; that nothing is lost or altered by the composition for every message is beyond any set of integration tests", "anchors": ["internal/syslog/server.go:handleConnection", "internal/cache/store/store.go:Put", "internal/cache/store/store.go:Get", "internal/routing/local_store_reader.go:Read", "internal/gateway/gateway.go:listenAndServe", "pkg/client/client.go:Read"]}
{"id": "C183", "title": "Between its nodes a cluster talks in bytes, and that changes nothing", "statement": "What clients send to any node of a cluster, the batches nodes pass on to each other, SetRanges requests, reads forwarded from node to node and their answers passed back are gRPC messages that are encoded, limited in size, and decoded at every hop. The cluster is nevertheless after any history what it would be if nodes handed each other the messages themselves: every envelope is stored as it was sent or lost on the way; the bytes a client is given are the answer one node found in its store to that client's question, at a moment while the client waited; the node is the owner while the nodes involved know it; and once everything sent of a source has arrived the answer has all of it that was asked for, through any node that knows the owner. A node that knows the owner can answer in any state, if the answer is not larger than a connection takes.", "quantifier": "all byte strings sent by clients, all interleavings of sends, batches, losses, SetRanges, truncation, restarts and steps of any number of concurrent reads, all routes of a read through the cluster, all hash functions", "why_tests_cant": "a forwarded read interleaves at each hop with everything else the cluster does, and each hop decodes and encodes again; no set of requests covers all bytes, routes and interleavings", "anchors": ["internal/routing/ingress_reverse_proxy.go:Send", "internal/routing/egress_reverse_proxy.go:Read", "internal/routing/batched_ingress_client.go:write", "internal/routing/orchestrator.go:SetRanges", "internal/routing/local_store_reader.go:Read", "internal/cache/log_cache.go:setupRouting"]}
{"id": "C184", "title": "Whatever node a line is sent to and whatever node is asked, it is read back over HTTP", "statement": "In a cluster, envelopes (for instance those of log lines written to the syslog port) sent in batches to any of the nodes are given to an HTTP client that reads their source through a gateway connected to any node that knows who has the source: exactly those that the options ask for, in time order, each once, up to the limit; or the client has an error, because an exchange was lost or a call failed. A log line comes out with its text, name and time. And if the answer is not too large there is a run that gives it.", "quantifier": "all cluster histories with bytes between clients and nodes and between nodes, in which the source's envelopes all arrived at the node that has it; all nodes written to, all nodes asked, all events while the read is under way, all options, all log lines", "why_tests_cant": "it composes the syslog grammar, the protobuf encoding, routing between nodes, the store, the gateway's JSON and the client, over all schedules", "anchors": ["internal/syslog/server.go:handleConnection", "internal/routing/ingress_reverse_proxy.go:Send", "internal/routing/batched_ingress_client.go:write", "internal/routing/egress_reverse_proxy.go:Read", "internal/cache/log_cache.go:setupRouting", "internal/gateway/gateway.go:listenAndServe", "pkg/client/client.go:Read"]}
{"id": "C185", "title": "The number a client reads over HTTP is, to the bit, the number the node holds, and is written as short as can be", "statement": "A gauge's value crosses HTTP as decimal text. Every finite float64 is written as a JSON number from which exactly that float64 is read; what is read from any decimal is the float64 nearest to it (of two as near, the even one), or an error if it is beyond the greatest; the text has as few digits as any text that reads back as that float64, never more than 17, and none with as few digits is nearer to the value.", "quantifier": "all finite float64 of either sign, subnormal ones included; all decimal texts with any number of digits and any exponent", "why_tests_cant": "there are 2^64 values and infinitely many texts; errors of rounding show at isolated values only", "anchors": ["internal/gateway/gateway.go:listenAndServe", "pkg/client/client.go:Read"]}
{"id": "C186", "title": "The numbers of query results survive HTTP: values to the bit, times to the nearest millisecond", "statement": "Query results cross HTTP as decimal text: values in quotes, times with three decimals. Every value (also minus zero, infinities, NaN) is read as exactly the value written; every time is written as the nearest thousandth of a second and does not change when it is read and written again; what is read from any decimal text is the nearest float64. So a result whose labels are text is given to HTTP clients as the result the node answered, times rounded that way, and is an error only if an exchange or the node's call failed or the result has a time that is not finite.", "quantifier": "all float64 values, all decimal texts, all results of instant and range queries with labels in UTF-8, all queries and options", "why_tests_cant": "there are 2^64 values, and rounding twice goes wrong at isolated values only", "anchors": ["pkg/marshaler/marshaler.go:assemblePoint", "pkg/marshaler/marshaler.go:disassemblePoint", "internal/gateway/gateway.go:listenAndServe", "pkg/client/client.go:PromQL"]}
{"id": "C187", "title": "A decimal number sent in comes out as the same number (general form)", "statement": "A number written in decimal, in a document, as the value of a gauge in a syslog message, or as a value of a query result, is given back as the same number in decimal. It holds for every number of up to fifteen significant digits, of either sign, up to the greatest float64 and down to 2^-1022; it does not hold for numbers of sixteen digits, or of fewer where they are smaller than that. Infinities and NaN are read as such however their letters are written.", "quantifier": "all decimal texts with or without point and exponent, all syslog messages with a gauge", "why_tests_cant": "whether a decimal survives depends on where it falls between two float64s, and this differs for each of the 10^15 digit sequences and each exponent", "anchors": ["internal/syslog/server.go:convertGauge", "pkg/marshaler/marshaler.go:disassemblePoint", "internal/gateway/gateway.go:listenAndServe"]}
{"id": "C188", "title": "A metric in a syslog line reaches an HTTP client through a cluster, a gauge's number as the nearest float64", "statement": "A counter, gauge, event or timer that comes as one line of a syslog connection, is sent to any node of a cluster and read over HTTP through any node, is given to the client as what the line says, under the application's name and with the line's time, or the client has an error because an exchange was lost or a node's call failed. The value of a gauge may be any decimal in range: the client has the float64 nearest to it, of two as near the even one, with its sign, and if it has up to fifteen digits the JSON text of it is the same number.", "quantifier": "all lines with one structured data element of a known kind, all names and units in UTF-8, all decimal values in range, all clusters, all histories of sends, table changes and other requests around it", "why_tests_cant": "the way has five encodings of the number (text, float64, protobuf bytes twice, JSON text), and an error in any of them shows at isolated values only", "anchors": ["internal/syslog/server.go:convertGauge", "internal/syslog/server.go:convertCounter", "internal/syslog/server.go:convertTimer", "internal/syslog/server.go:convertEvent", "internal/gateway/gateway.go:listenAndServe", "pkg/client/client.go:Read"]}
{"id": "C189", "title": "The info page is a document that gives the gateway's version and uptime (general form)", "statement": "GET /api/v1/info is one JSON document whose version is the text the gateway was given as its version and whose vm_uptime is its uptime in decimal, and through it clients are given that uptime. It holds for every version that is UTF-8 text without quotes, backslashes and control characters; the version is not escaped, so with others the page is no document, or clients are given another uptime.", "quantifier": "all version texts, all uptimes, all exchanges", "why_tests_cant": "whether a text breaks the document depends on each of its characters", "anchors": ["internal/gateway/gateway.go:handleInfoEndpoint", "pkg/client/client.go:LogCacheVMUptime"]}
{"id": "C190", "title": "Syslog lines that cannot be read do not disturb the others", "statement": "On a syslog connection with any sequence of messages, the messages that can be read arrive at Log Cache, all of them and in order; each message whose structured data element says nothing the server knows is counted once as invalid and sends nothing, and neither the connection nor the server ends. A line with one metric either sends what it says or nothing. A gauge sends its value if the value is a decimal in range, infinite or NaN, and nothing otherwise: no other value in its place.", "quantifier": "all connections of framed messages with at most one structured data element each and with application, process id and time, all texts of a gauge's value", "why_tests_cant": "whether a line is refused depends on all characters of its values, and the effect on the others on its place among them", "anchors": ["internal/syslog/server.go:parseListener", "internal/syslog/server.go:convertToEnvelope", "internal/syslog/server.go:convertGauge"]}
