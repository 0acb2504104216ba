{"id": "C01", "title": "Aggregation keeps one point per series and time bin, holding the in-order merge of everything added", "statement": "Take any sequence of points added to an empty aggregation buffer of positive bin width. Iterating the buffer yields, for every (series, time bin) pair that occurred, exactly one point, and its value is the left-to-right merge of all points added for that pair (for persisted points opening a later bin, starting from the preceding bin's merged value). No point is yielded for a pair that never occurred. (As everywhere for the buffer: no two series that occur share the 64-bit hash they are filed under.)", "quantifier": "every finite sequence of added points, every positive bin width, every arrival order of timestamps", "why_tests_cant": "the binary searches over keys and bins interact with arbitrary arrival orders; tests sample a handful of orders", "anchors": ["src/buckets.rs: Buckets::add, Buckets::iter", "src/metric/telemetry.rs: Telemetry::within, AddAssign"]}
{"id": "C02", "title": "Buffer count equals the number of buffered points", "statement": "After any sequence of add and reset operations, count() equals the number of points the iterator yields, and is_empty() is true exactly when iteration yields nothing.", "quantifier": "every finite history of add and reset operations", "why_tests_cant": "sinks use count() for back pressure; a drift would need a particular history of resets with persisted points to show", "anchors": ["src/buckets.rs: Buckets::count, Buckets::is_empty, Buckets::reset, Buckets::iter"]}
{"id": "C03", "title": "Reset keeps exactly the newest persisted point of each series", "statement": "reset() drops every buffered point except, for each series whose latest-bin point is marked persist, that one point, whose value, name and tags are unchanged and whose timestamp becomes the current time. A second reset at the same time changes nothing. (No two series that occur share their 64-bit hash.)", "quantifier": "every reachable buffer state and every current time", "why_tests_cant": "depends on which point ends up last after arbitrary histories", "anchors": ["src/buckets.rs: Buckets::reset"]}
{"id": "C04", "title": "Iteration order of the aggregation buffer", "statement": "Iteration visits each series in one contiguous run, in increasing order of the series hash, and within a series the time bins are strictly increasing; no series appears in two runs. (No two series that occur share their 64-bit hash.)", "quantifier": "every history of add and reset operations", "why_tests_cant": "the padding stage in the Wavefront sink relies on this for every history, not just sampled ones", "anchors": ["src/buckets.rs: Iter::next, Buckets::add"]}
{"id": "C05", "title": "Adding a point never disturbs other series or other bins", "statement": "Adding a point changes the buffered points of no other series, and within its own series changes no point of another time bin. (The added point shares its 64-bit hash with no other series that occurs.)", "quantifier": "every reachable buffer state and every added point", "why_tests_cant": "frame condition over all states", "anchors": ["src/buckets.rs: Buckets::add"]}
{"id": "C06", "title": "Merge semantics of telemetry values", "statement": "Merging two points gives a point of the right operand's aggregation kind. Merging a run of SET points keeps the last value; a run of SUM points gives the floating point left fold of addition; a run of SUMMARIZE (or of HISTOGRAM) points holds every inserted sample, so its count is the sum of the counts.", "quantifier": "every pair of values and every run of values", "why_tests_cant": "algebraic law over all values and all lengths", "anchors": ["src/metric/telemetry.rs: impl Add for Value, AddAssign for Telemetry"]}
{"id": "C07", "title": "Merging into a sampling aggregate never loses samples", "statement": "When the right operand of a merge is a SUMMARIZE or HISTOGRAM point, the result's count is the sum of both operands' counts (a SET or SUM operand counting as one sample).", "quantifier": "every pair of values", "why_tests_cant": "needs all sixteen kind combinations with arbitrary content", "anchors": ["src/metric/telemetry.rs: impl Add for Value (94-137)"]}
{"id": "C08", "title": "Merging keeps persistence if either side is persisted", "statement": "If either operand of a merge is marked persist then the result is marked persist (as the comment in the merge says).", "quantifier": "every pair of points", "why_tests_cant": "the wrong case needs a persisted left side and a non-persisted right side", "anchors": ["src/metric/telemetry.rs: AddAssign for Telemetry (222-231)"]}
{"id": "C09", "title": "Builder validation is complete and thaw/harden is lossless", "statement": "Hardening a builder succeeds exactly when it has a name, exactly one value, no error bound unless SUMMARIZE (and then below 1.0), and no histogram bounds unless HISTOGRAM; otherwise it returns an error. Thawing a hardened point and hardening it again returns the same name, value, tags, timestamp and persist flag.", "quantifier": "every combination of builder fields and every point", "why_tests_cant": "the product of the option fields is large; round trip is a law over all points", "anchors": ["src/metric/telemetry.rs: SoftTelemetry::harden, Telemetry::thaw"]}
{"id": "C10", "title": "Tag iteration with defaults", "statement": "Iterating an event's tags with a default tag map yields every key of either map exactly once; a key carried by the event has the event's value, any other key has the default's value. Lookup of a single tag with defaults agrees with the iteration.", "quantifier": "every event tag map (including absent) and every default map", "why_tests_cant": "set-theoretic law over arbitrary maps", "anchors": ["src/metric/mod.rs: TagIter", "src/metric/telemetry.rs: Telemetry::tags, get_from_tags", "src/metric/logline.rs: LogLine::tags"]}
{"id": "C11", "title": "Tag insertion, removal and overlay", "statement": "insert_tag and overlay_tag set exactly the given key and return the previous value; remove_tag removes exactly the given key; overlay_tags_from_map gives every key of the overlay the overlay's value and leaves all other keys alone.", "quantifier": "every tag map, key, value and overlay map", "why_tests_cant": "law over arbitrary maps", "anchors": ["src/metric/telemetry.rs: insert_tag, remove_tag, overlay_tag, overlay_tags_from_map", "src/metric/logline.rs: same functions"]}
{"id": "C12", "title": "Time bins have the configured width", "statement": "Two points of the same name and tags fall in the same bin exactly when their timestamps lie in the same half-open interval [k*w, (k+1)*w) for the configured width w.", "quantifier": "every pair of integer timestamps (including negative ones) and every positive width", "why_tests_cant": "negative timestamps and bins around zero are not tested", "anchors": ["src/metric/telemetry.rs: Telemetry::within"]}
{"id": "C13", "title": "Tag map comparison is a consistent order", "statement": "The comparison of optional tag maps used to order points is antisymmetric and transitive, and says equal only for equal tag maps.", "quantifier": "every triple of optional tag maps", "why_tests_cant": "transitivity failures need three carefully chosen maps", "anchors": ["src/metric/mod.rs: cmp_tagmap"]}
{"id": "C14", "title": "Fan-out delivers to every forward exactly once or counts the drop", "statement": "Sending an event over a list of forwards enqueues it exactly once on every forward that is not full and on no other; every full forward increments the drop counter by exactly one; transient errors are retried without duplication; events sent one after another appear on each forward in the order sent.", "quantifier": "every number of forwards, every pattern of full and transiently failing queues, every sequence of events", "why_tests_cant": "needs all combinations of per-queue failures", "anchors": ["src/util.rs: send"]}
{"id": "C15", "title": "A filter's output is the in-order concatenation of its per-event outputs", "statement": "For a filter whose processing never fails, the stream sent downstream is exactly, in order, the concatenation of the outputs for each received event, up to and including the final shutdown marker; idle polls change nothing.", "quantifier": "every filter, every input queue content and every pattern of empty polls", "why_tests_cant": "universally quantified over filter behaviours and streams", "anchors": ["src/filter/mod.rs: Filter::run"]}
{"id": "C16", "title": "A failing event affects only itself", "statement": "When processing one event fails, the downstream receives that event's failure report and the outputs for all other events are delivered as if the failing event had not been there.", "quantifier": "every filter and every stream with failing events", "why_tests_cant": "left-over outputs only show up on the next successful event", "anchors": ["src/filter/mod.rs: Filter::run (96-110)", "src/filter/programmable_filter.rs: ProgrammableFilter::process"]}
{"id": "C17", "title": "A filter stops exactly when every upstream has announced shutdown", "statement": "A filter with n upstreams returns on the n-th shutdown marker it receives (the first if n is 0 or 1), having processed every event queued before that marker, and keeps running otherwise.", "quantifier": "every n, every interleaving of events and shutdown markers", "why_tests_cant": "all interleavings", "anchors": ["src/filter/mod.rs: Filter::run (83-93)"]}
{"id": "C18", "title": "No node stops before all of its upstreams have stopped", "statement": "In any running topology of sources and filters, a filter that has returned has received the shutdown of each of its distinct upstreams, so no event of a still-running upstream is lost.", "quantifier": "every acyclic topology and every schedule", "why_tests_cant": "needs a chain of filters with two upstreams each and a particular schedule", "anchors": ["src/filter/mod.rs: Filter::run", "src/bin/cernan.rs: main"]}
{"id": "C19", "title": "Delay filter lets through exactly the timely events", "statement": "An event with a timestamp is forwarded unchanged when it is at most `tolerance` seconds away from now and dropped otherwise (documented: rejected iff |timestamp - now| > tolerance); events without a timestamp are forwarded unchanged; order is kept; the accept and reject counters add up to the number of timestamped events.", "quantifier": "every event stream, clock value and tolerance", "why_tests_cant": "boundary values and all stream lengths", "anchors": ["src/filter/delay_filter.rs: DelayFilter::process"]}
{"id": "C20", "title": "Flush boundary filter releases every held event exactly once, after tolerance+1 flushes, in timestamp order", "statement": "Every event with a timestamp that enters the filter is released exactly once, together with the TimerFlush that makes its timestamp's hold older than the tolerance, before that TimerFlush; released events are in timestamp order, arrival order within one timestamp; each TimerFlush is forwarded once; no event is invented.", "quantifier": "every stream of events and flushes and every tolerance", "why_tests_cant": "history-dependent over unbounded streams", "anchors": ["src/filter/flush_boundary_filter.rs: FlushBoundaryFilter::process"]}
{"id": "C21", "title": "Flush boundary filter forwards events that have no timestamp", "statement": "Events that carry no timestamp and are not flushes (raw payloads) are forwarded downstream, not lost.", "quantifier": "every stream", "why_tests_cant": "no test sends raw events through the filter", "anchors": ["src/filter/flush_boundary_filter.rs: FlushBoundaryFilter::process (85-90)"]}
{"id": "C22", "title": "JSON encoding of log lines: one raw event per line, earlier data wins", "statement": "Each log line becomes exactly one raw JSON event whose object has every key of the parsed line (or `message`), the line's fields and the time/path/tags metadata; a key present in several of these has the value of the earliest one. All other events pass unchanged.", "quantifier": "every log line, field map, tag map and parser outcome", "why_tests_cant": "law over arbitrary JSON objects", "anchors": ["src/filter/json_encode_filter.rs: process, merge_objects"]}
{"id": "C23", "title": "Programmable filter forwards each flush index at most once, in increasing order", "statement": "Through a programmable filter, the TimerFlush indices that come out are strictly increasing and each incoming index larger than all before is forwarded exactly once, provided the script's tick succeeds; raw and shutdown events pass unchanged.", "quantifier": "every stream and every script behaviour", "why_tests_cant": "duplicated flushes from many upstreams interleave arbitrarily", "anchors": ["src/filter/programmable_filter.rs: process (535-573)"]}
{"id": "C24", "title": "Sinks receive every event exactly once, in order, despite back pressure", "statement": "Every telemetry, log and raw event taken from the queue before the sink stops is delivered to the sink exactly once and in queue order; while the sink's valve is closed nothing is delivered and the sink is flushed until it opens.", "quantifier": "every queue content and every valve behaviour", "why_tests_cant": "valve can close and open at any point", "anchors": ["src/sink/mod.rs: Sink::consume"]}
{"id": "C25", "title": "Each flush index triggers at most one flush", "statement": "With flush interval k, the sink is flushed by the timer exactly once for each received flush index that is larger than every earlier one and divisible by k (for k=0, by every such index), however often and in whatever order the indices are received from its upstreams; with no interval, never.", "quantifier": "every stream of flush indices and interval", "why_tests_cant": "duplicate flush pulses arrive once per upstream in any interleaving", "anchors": ["src/sink/mod.rs: Sink::consume (131-150)"]}
{"id": "C26", "title": "A sink stops only after all its upstreams announced shutdown", "statement": "A sink with n upstreams shuts down only after it has received n shutdown markers, so that every event queued by a still-running upstream is delivered (the at-least-once note in the code).", "quantifier": "every n and every interleaving", "why_tests_cant": "needs two upstreams with events queued after the first marker", "anchors": ["src/sink/mod.rs: Sink::consume (163-190)"]}
{"id": "C27", "title": "The statsd parser accepts exactly the statsd grammar", "statement": "Parsing a packet into an empty result list succeeds exactly when the packet has at least one line and every line is name ':' value '|' type with an optional '@' sample rate, with non-empty name, parsable numbers and a type among g, c, ms, h; on success there is one point per line, in order, with the line's name and value.", "quantifier": "every byte string, every float parser", "why_tests_cant": "the input space is all strings", "anchors": ["src/protocols/statsd.rs: parse_statsd"]}
{"id": "C28", "title": "statsd types map to the documented aggregation, sign and sampling rules", "statement": "A gauge line gives a persisted SET point, or a persisted SUM point when its value is explicitly signed; a counter line gives a non-persisted SUM point; a timer or histogram line gives a SUMMARIZE point, or a HISTOGRAM point with the bounds of the first matching configured mask; counters and gauges with a sample rate are scaled by 1/rate.", "quantifier": "every well-formed line, every mask list", "why_tests_cant": "combinations of type, sign, rate and masks", "anchors": ["src/protocols/statsd.rs: parse_statsd"]}
{"id": "C29", "title": "The graphite parser accepts exactly triples of name, value, time", "statement": "Parsing succeeds on an empty result list exactly when the input's whitespace separated words come in one or more complete triples whose second and third words are numbers; it yields one SET point per triple, in order, with that name, value and timestamp.", "quantifier": "every byte string", "why_tests_cant": "the input space is all strings", "anchors": ["src/protocols/graphite.rs: parse_graphite"]}
{"id": "C30", "title": "A rejected line or packet contributes no telemetry", "statement": "In the statsd and graphite sources, the points emitted for a stream of packets/lines are exactly the points of the accepted ones; a rejected one contributes nothing and changes nothing.", "quantifier": "every sequence of packets or lines", "why_tests_cant": "left-over points surface only on a later accepted packet", "anchors": ["src/source/statsd.rs: handle_datagrams", "src/source/graphite.rs: handle_stream"]}
{"id": "C31", "title": "Length-prefixed framing is independent of how bytes arrive", "statement": "For every list of non-empty payloads not exceeding the maximum size, written one after another as big-endian 32 bit length plus bytes, the non-blocking reader returns exactly those payloads in order, however the bytes are split over reads and wake-ups.", "quantifier": "every payload list and every split of the byte stream into arrivals", "why_tests_cant": "all splits, in particular inside the four length bytes", "anchors": ["src/source/nonblocking.rs: BufferedPayload::read, read_length, read_payload"]}
{"id": "C32", "title": "Framing rejects over-long payloads and only those", "statement": "A length prefix greater than the configured maximum yields an error before any payload is buffered; every length up to the maximum, including zero, is accepted and returned.", "quantifier": "every length prefix and maximum", "why_tests_cant": "boundary values including zero", "anchors": ["src/source/nonblocking.rs: BufferedPayload::read"]}
{"id": "C33", "title": "Avro payload header and metadata decoding is the inverse of the wire format", "statement": "Decoding the header and metadata of any encoded avro payload returns the version, control flags, id, order key, key/value metadata and avro body that were encoded; a truncated payload is rejected as invalid.", "quantifier": "every header, every metadata list within the wire limits, every body", "why_tests_cant": "round trip over all values and all truncations", "anchors": ["src/source/avro.rs: Header, Payload::from"]}
{"id": "C34", "title": "A synchronous avro publish is acknowledged only after the sink resolved that very event", "statement": "For every interleaving of connection handlers and sinks, the source writes the acknowledgement for a synchronous payload only after a sink has resolved an event of that payload; an acknowledgement arriving early is not lost; non-synchronous payloads are never acknowledged.", "quantifier": "every interleaving of publishes and sink resolutions over any number of connections", "why_tests_cant": "a race between two threads", "anchors": ["src/source/avro.rs: handle_avro_payload", "src/metric/ackbag.rs: SyncAckBag"]}
{"id": "C35", "title": "Kafka sink resolves every accepted message exactly once", "statement": "After a flush, every raw event delivered since the last flush has been resolved exactly once: it is published or counted as failed; a message is re-sent only after a retryable error, with the same payload, key and metadata; counters of published, failed and retried messages account for every broker answer.", "quantifier": "every sequence of broker answers and every set of messages", "why_tests_cant": "arbitrary patterns of broker failures over repeated rounds", "anchors": ["src/sink/kafka.rs: Kafka::flush, await_inflight_messages, deliver_raw"]}
{"id": "C36", "title": "Kafka sink acknowledges only published messages", "statement": "The source of a raw event receives its acknowledgement only if the broker confirmed the message.", "quantifier": "every sequence of broker answers", "why_tests_cant": "requires permanent broker errors", "anchors": ["src/sink/kafka.rs: await_inflight_messages (389-463), flush (333-365)"]}
{"id": "C37", "title": "Kafka sink applies back pressure by bytes", "statement": "The sink's valve is closed exactly when the bytes of raw events delivered since the last flush reach the configured maximum, and, for a positive maximum, a completed flush opens it.", "quantifier": "every delivery history", "why_tests_cant": "history dependent accounting", "anchors": ["src/sink/kafka.rs: valve_state, deliver_raw, flush"]}
{"id": "C38", "title": "Elasticsearch sink loses no line before it is stored or its retry limit is exceeded", "statement": "A buffered line leaves the buffer exactly when the server acknowledged it or its delivery failed more often than the configured limit; other lines stay, in order; a failed request changes no line; no line is duplicated.", "quantifier": "every sequence of deliveries, flushes and per-item server answers", "why_tests_cant": "arbitrary partial failures over repeated flushes", "anchors": ["src/sink/elasticsearch.rs: flush, deliver_line"]}
{"id": "C39", "title": "Wavefront padding only inserts zero points", "statement": "The padded stream with the inserted zero points removed is exactly the original stream, in order; inserted points carry the series' name and tags; between two original points at most two zeros are inserted. (Bin width not zero.)", "quantifier": "every stream of points, every span other than zero (zero divides by zero), every padding configuration, every record of last seen times", "why_tests_cant": "the stack-like emit queue makes the behaviour stream dependent", "anchors": ["src/sink/wavefront.rs: Padding::next"]}
{"id": "C40", "title": "Wavefront padding brackets every gap inside a flush", "statement": "In the padded stream, whenever two consecutive original points of a padded series are more than one bin apart, a zero directly follows the earlier point's second and a zero directly precedes the later point's second.", "quantifier": "every stream with sorted timestamps per series", "why_tests_cant": "all gap patterns", "anchors": ["src/sink/wavefront.rs: Padding::next"]}
{"id": "C41", "title": "Wavefront padding brackets gaps across flushes for every series", "statement": "If a padded series was last seen in an earlier flush more than one bin before its first point in this flush, the stream contains zero points right after the last seen time and right before the first point.", "quantifier": "every flush content and last-seen record", "why_tests_cant": "single-point series followed by another series is not tested", "anchors": ["src/sink/wavefront.rs: Padding::next (290-300), format_stats"]}
{"id": "C42", "title": "Wavefront and native sinks keep data until it is written", "statement": "A flush returns only after the connection accepted the complete serialized content; buffered points are discarded only then; each failed attempt keeps the content identical.", "quantifier": "every sequence of connection and write failures", "why_tests_cant": "arbitrary failure sequences", "anchors": ["src/sink/wavefront.rs: flush", "src/sink/native.rs: flush"]}
{"id": "C43", "title": "Value-to-string caches are transparent", "statement": "The cached formatting of any sequence of values returns for each value the same text as direct formatting of a numerically equal value first seen, never another value's text, and never fails.", "quantifier": "every sequence of lookups", "why_tests_cant": "cache order invariants over all histories; NaN", "anchors": ["src/sink/wavefront.rs: get_from_cache", "src/sink/influxdb.rs: get_from_cache"]}
{"id": "C44", "title": "Prometheus summary windows hold the newest capacity-many seconds", "statement": "A windowed accumulator holds points with strictly increasing timestamps, never more than its capacity; when it overflows the oldest timestamps leave; points of one second are merged; the running count and sum keep covering everything ever inserted.", "quantifier": "every insertion history and every capacity of at least one", "why_tests_cant": "eviction under arbitrary arrival order", "anchors": ["src/sink/prometheus.rs: Accumulator::insert, purge"]}
{"id": "C45", "title": "Prometheus aggregation accepts only points of the stored kind", "statement": "For every stored metric the aggregation kind never changes; a point of another kind is refused and changes nothing; every accepted point is reflected in exactly the metric of its name; count() is the number of distinct accepted names.", "quantifier": "every insertion history", "why_tests_cant": "history dependent", "anchors": ["src/sink/prometheus.rs: PrometheusAggr::insert, count"]}
{"id": "C46", "title": "Prometheus aggregation distinguishes tag sets", "statement": "Points with the same name and different tags are kept as different metrics (as the documentation of the aggregation says).", "quantifier": "every pair of points", "why_tests_cant": "tests only use one tag set per name", "anchors": ["src/sink/prometheus.rs: PrometheusAggr::insert (270-310)"]}
{"id": "C47", "title": "Prometheus histogram exposition is cumulative", "statement": "For each histogram the exposed bucket counts are non-decreasing in the order of the bounds and the last one equals the exposed total count.", "quantifier": "every histogram content", "why_tests_cant": "all contents", "anchors": ["src/sink/prometheus.rs: write_text"]}
{"id": "C48", "title": "Prometheus metric names are sanitized", "statement": "Exposed metric names contain only [a-zA-Z0-9:_], have the length of the original name, and names already valid are unchanged; distinct names stay distinct.", "quantifier": "every name", "why_tests_cant": "all byte strings", "anchors": ["src/sink/prometheus.rs: sanitize"]}
{"id": "C49", "title": "Prometheus exposition emits one TYPE line per exposed name", "statement": "In one exposition no metric name has two TYPE lines and every sample line is preceded by the TYPE line of its name.", "quantifier": "every set of metrics", "why_tests_cant": "needs two names that collide after sanitizing", "anchors": ["src/sink/prometheus.rs: write_text"]}
{"id": "C50", "title": "Native sink to native source preserves points and lines", "statement": "A SET, SUM or SUMMARIZE point and a log line sent by the native sink and received by the native source keep their name, kind, value or samples, persistence, timestamp and tags (own tags over sink tags).", "quantifier": "every point, line and tag configuration", "why_tests_cant": "round trip over all values", "anchors": ["src/sink/native.rs: flush", "src/source/native.rs: handle_stream_payload"]}
{"id": "C51", "title": "Topology wiring: forwards and expected shutdowns", "statement": "For every accepted configuration, every source and filter gets exactly one sender per distinct configured forward, and every sink and filter expects exactly as many shutdowns as it has distinct upstream nodes.", "quantifier": "every configuration graph", "why_tests_cant": "all graphs, including filters forwarding to each other", "anchors": ["src/bin/cernan.rs: main, populate_forwards", "src/matrix.rs: Adjacency"]}
{"id": "C52", "title": "Retry delay grows with the attempts and is capped", "statement": "The back-off delay is zero for no failed attempts, never decreases with more attempts, and never exceeds 512 ms; it is 2**x ms for 1 <= x < 9 as documented.", "quantifier": "every attempt count", "why_tests_cant": "all attempt counts", "anchors": ["src/time.rs: delay"]}
{"id": "C53", "title": "Flush pulses are numbered 1, 2, 3, ...", "statement": "The flush source sends to each of its forwards the indices 1, 2, 3, ... in order without gaps, for as long as it runs.", "quantifier": "every run length", "why_tests_cant": "unbounded run", "anchors": ["src/source/flush.rs: FlushTimer::run"]}
{"id": "C54", "title": "Thread pool joins every thread exactly once", "statement": "Every spawned thread gets a fresh id; over any interleaving of spawns, completions and join_ready calls, each completed thread is joined exactly once, and shutdown leaves no thread unjoined.", "quantifier": "every interleaving of spawns, completions and joins", "why_tests_cant": "schedules", "anchors": ["src/thread.rs: ThreadPool"]}
{"id": "C55", "title": "File watcher returns each appended non-blank line once, in order", "statement": "If a file only grows by complete lines, the lines returned by the watcher from its start position are the non-blank appended lines, each exactly once and in order, however appends and polls interleave; a truncated or rotated file is read from its start.", "quantifier": "every interleaving of appends, truncations, rotations and polls", "why_tests_cant": "schedules of file changes versus polls", "anchors": ["src/source/file/file_watcher.rs: read_line", "src/source/file/file_server.rs: run"]}
{"id": "C56", "title": "A partially written last line is not corrupted", "statement": "If a poll sees a line whose newline has not been written yet, the text of that line is eventually returned unaltered.", "quantifier": "every split point of a line over polls", "why_tests_cant": "needs a poll between two writes of one line", "anchors": ["src/source/file/file_watcher.rs: read_line (118-184)"]}
{"id": "C57", "title": "Internal counters are reported without loss or double counting", "statement": "For every interleaving of counter increments and reporting sweeps, the sum of the reported values plus the value still held equals the number of increments; a zero counter is never reported.", "quantifier": "every interleaving", "why_tests_cant": "atomics under concurrency", "anchors": ["src/source/internal.rs: atom_telem macro, run"]}
{"id": "C58", "title": "InfluxDB sink posts each batch until accepted", "statement": "A flush ends only when the server answered with success; every failed attempt re-sends the identical body; the buffer is cleared only afterwards and an empty buffer still terminates.", "quantifier": "every sequence of server answers", "why_tests_cant": "arbitrary failure sequences", "anchors": ["src/sink/influxdb.rs: flush, format_stats"]}
{"id": "C59", "title": "Listener tokens identify listeners", "statement": "Every inserted listener gets a token different from all other listeners' tokens and lookup by token returns that listener; no listener's token equals the reserved system token.", "quantifier": "every number of listeners", "why_tests_cant": "the reserved token is hit only with thousands of listeners", "anchors": ["src/util.rs: TokenSlab", "src/constants.rs: SYSTEM"]}
{"id": "C60", "title": "Native source conversion", "statement": "Every received point with at least one sample becomes exactly one event with the wire's name, kind, persistence, tags and all samples merged in order; points without samples are skipped; all points precede all log lines of a payload, each in wire order.", "quantifier": "every payload", "why_tests_cant": "all payload shapes", "anchors": ["src/source/native.rs: handle_stream_payload"]}
{"id": "C61", "title": "Configured tags take precedence over event tags", "statement": "As documented for the filter and sink configurations, a tag configured for a node appears in its output with the configured value whatever tags the event carries.", "quantifier": "every event, every configured tag map", "why_tests_cant": "needs an event that carries the same key with another value", "anchors": ["src/filter/json_encode_filter.rs: JSONEncodeFilterConfig.tags, process", "src/metric/mod.rs: TagIter"]}
{"id": "C62", "title": "Kafka sink survives every raw event", "statement": "Delivering a raw event to the kafka sink never stops the sink, whatever its metadata.", "quantifier": "every raw event", "why_tests_cant": "needs metadata keys that are not text", "anchors": ["src/sink/kafka.rs: deliver_raw, try_payload"]}
{"id": "C63", "title": "Elasticsearch documents carry the line", "statement": "The document sent for a line holds the line's id, path, payload and time, its fields, its tags and the configured tags, fields winning over line tags over configured tags.", "quantifier": "every line, every configured tag map", "why_tests_cant": "needs fields or tags that collide with the fixed names", "anchors": ["src/sink/elasticsearch.rs: bulk_body"]}
{"id": "C64", "title": "Padding zeros read as zero", "statement": "Every line written for a padding zero reports the value zero, in the name, tags and kind of the padded series.", "quantifier": "every padded point of every kind", "why_tests_cant": "needs zeros for summaries and histograms, whose text has several lines", "anchors": ["src/sink/wavefront.rs: format_stats (405-418), fmt_val"]}
{"id": "C65", "title": "A wavefront flush writes every buffered point", "statement": "The text written by a flush is the concatenation, in stream order, of the lines of every buffered point and of the inserted zeros, each with its own name, number, time and tags; number caches never show. (Equal numbers, none of them NaN, are written alike.)", "quantifier": "every history of deliveries and flushes, every number formatting that agrees on equal numbers", "why_tests_cant": "unbounded histories and cache contents", "anchors": ["src/sink/wavefront.rs: format_stats, fmt_val, get_from_cache, flush"]}
{"id": "C66", "title": "Age thresholds of wavefront and prometheus", "statement": "With an age threshold a point is buffered exactly when its time differs from the current time by at most the threshold; without one every point is buffered.", "quantifier": "every point time, current time and threshold", "why_tests_cant": "boundary and overflow behaviour over all 64 bit times", "anchors": ["src/sink/wavefront.rs: deliver (643-651)", "src/sink/prometheus.rs: deliver (661-669)"]}
{"id": "C67", "title": "Last seen times never go back", "statement": "As the comment in the code says, the recorded last seen time of a series is only replaced by a greater time.", "quantifier": "every flush history", "why_tests_cant": "needs late points in a later flush", "anchors": ["src/sink/wavefront.rs: format_stats (398-400, 448-450)"]}
{"id": "C68", "title": "Totals of a summary cover every sample", "statement": "The count and the sum exposed for a summary are those of all samples observed under its name.", "quantifier": "every history of insertions and purges", "why_tests_cant": "needs points that carry several samples, and unbounded histories", "anchors": ["src/sink/prometheus.rs: Accumulator::insert (159-175), Iter::next"]}
{"id": "C69", "title": "Labels of an exposition can be read back", "statement": "Two points with different tags are written with different label texts.", "quantifier": "every pair of tag maps", "why_tests_cant": "quantifies over all keys and values", "anchors": ["src/sink/prometheus.rs: write_kv, write_tags"]}
{"id": "C70", "title": "Histogram buckets are named as the text format asks", "statement": "Every bucket of a histogram is exposed as name_bucket with its le label.", "quantifier": "every exposition", "why_tests_cant": "quantifies over all aggregated states", "anchors": ["src/sink/prometheus.rs: write_text (523-560)"]}
{"id": "C71", "title": "An idle native sink keeps its connection usable", "statement": "After flushes with nothing to send, points delivered later by the native sink still reach the native source on the same connection.", "quantifier": "every sequence of flushes on a connection", "why_tests_cant": "needs sink and source composed over arbitrary flush histories", "anchors": ["src/sink/native.rs: flush", "src/source/native.rs: handle_stream", "src/source/nonblocking.rs: BufferedPayload::read"]}
{"id": "C72", "title": "Timestamps survive the native protocol", "statement": "A point's or line's time in seconds, sent as milliseconds and read back, is unchanged.", "quantifier": "every 64 bit time", "why_tests_cant": "float rounding and overflow over all 64 bit times", "anchors": ["src/sink/native.rs: flush (timestamp_ms)", "src/source/native.rs: handle_stream_payload (0.001 factor)"]}
{"id": "C73", "title": "Which configurations start", "statement": "A configuration whose forwards all name configured sinks or filters starts; any other is refused before running, with a failure status.", "quantifier": "every configuration graph", "why_tests_cant": "all graphs, including filters nobody uses", "anchors": ["src/bin/cernan.rs: main (409-422), populate_forwards", "src/matrix.rs: filter_nodes"]}
{"id": "C74", "title": "A crashed stream handler does not disturb shutdown", "statement": "As the comment in tcp.rs says, stream handlers may crash without compromising the source's ability to shut down gracefully.", "quantifier": "every history of connections", "why_tests_cant": "needs a handler that panicked before a shutdown", "anchors": ["src/source/tcp.rs: spawn_stream_handlers (190-207)", "src/thread.rs: ThreadPool::shutdown, ThreadHandle::join"]}
{"id": "C75", "title": "Kafka keys keep the order of a key together", "statement": "Every raw event is produced with its ordering number, in upper case hexadecimal, as the message key: events with equal numbers, and only those, share a key and so a partition.", "quantifier": "every raw event and every two raw events", "why_tests_cant": "injectivity over all 64 bit ordering numbers", "anchors": ["src/sink/kafka.rs: deliver_raw (313-331), try_payload (149-176)"]}
{"id": "C76", "title": "One busy file does not hold up the others or the shutdown", "statement": "A round of the file source takes at least one line from every watched file that has one, reads at most max_read_bytes and one line more from each, and then waits at most 2048 ms for a shutdown.", "quantifier": "every set of files, every writer and every glob result", "why_tests_cant": "needs arbitrary interleavings of several writers with polling", "anchors": ["src/source/file/file_server.rs: run (90-176)"]}
{"id": "C77", "title": "The InfluxDB sink backs off from a failing server", "statement": "As influxdb.rs says, the sink avoids stampeding the database: the more attempts fail, the longer it sleeps before the next, by the documented table of delays; a success takes one attempt back.", "quantifier": "every sequence of server answers", "why_tests_cant": "needs arbitrary failure sequences, across flushes", "anchors": ["src/sink/influxdb.rs: flush (231-279)", "src/time.rs: delay (30-57)"]}
{"id": "C78", "title": "InfluxDB lines carry the point's time", "statement": "The time written for a point is its timestamp in nanoseconds.", "quantifier": "every 64 bit timestamp", "why_tests_cant": "saturation and sign conversion over all timestamps", "anchors": ["src/sink/influxdb.rs: format_stats (104-195)"]}
{"id": "C79", "title": "InfluxDB lines are unambiguous", "statement": "Two written lines are equal only if measurement, tags, number and time are; one point never reads as another or as two.", "quantifier": "every two points", "why_tests_cant": "injectivity over all names and tags", "anchors": ["src/sink/influxdb.rs: format_stats, fmt_tags"]}
{"id": "C80", "title": "InfluxDB self-telemetry counts what happened", "statement": "delivery_attempts counts the POSTs, success the accepted ones, and the two failure counters the refusals by class.", "quantifier": "every sequence of server answers", "why_tests_cant": "arbitrary failure sequences", "anchors": ["src/sink/influxdb.rs: flush (231-279)"]}
{"id": "C81", "title": "Reports of the file source reach the internal source's forwards once and in order", "statement": "Every point pushed with report_full_telemetry is sent exactly once, in the order pushed.", "quantifier": "every interleaving of reports and sweeps", "why_tests_cant": "concurrency", "anchors": ["src/source/internal.rs: report_full_telemetry, run (433-450)"]}
{"id": "C82", "title": "Shutdown of the internal source", "statement": "On shutdown the internal source reports what was counted so far and then sends exactly one Shutdown, last.", "quantifier": "every interleaving", "why_tests_cant": "concurrency", "anchors": ["src/source/internal.rs: run (112-125)"]}
{"id": "C83", "title": "Inserting a sample applies the point's aggregation", "statement": "insert on a SET replaces the value, on a SUM adds, on a SUMMARIZE or HISTOGRAM adds one sample (and to a summary's sum), and changes nothing else; a point whose count or sum is overridden refuses.", "quantifier": "every sequence of insertions into every point", "why_tests_cant": "arbitrary sequences and all four kinds", "anchors": ["src/metric/telemetry.rs: insert (678-705)"]}
{"id": "C84", "title": "Between components nothing is lost, duplicated, reordered or invented", "statement": "Every source thread, filter and the timer tries to hand each of its events once and in order to each of its configured forwards and to nobody else; every queue gives out what was put on it in order; a sink delivers what it takes once and in order. Only a full queue refuses an event.", "quantifier": "every configuration, every filter, every interleaving of all threads", "why_tests_cant": "interleavings of the whole process, any topology", "anchors": ["src/bin/cernan.rs: main", "src/util.rs: send", "src/filter/mod.rs: run", "src/sink/mod.rs: run", "src/source/flush.rs"]}
{"id": "C85", "title": "Once the sources are told to stop, the process ends", "statement": "After every source was told to stop, every filter and every sink stops.", "quantifier": "every configuration and every interleaving", "why_tests_cant": "liveness over all topologies and schedules", "anchors": ["src/bin/cernan.rs: main (780-815)", "src/filter/mod.rs: run", "src/sink/mod.rs: run"]}
{"id": "C86", "title": "What was sent before the shutdown is delivered", "statement": "When everything has stopped, every event a source sent to a sink has been delivered.", "quantifier": "every configuration and every interleaving", "why_tests_cant": "races between several upstreams", "anchors": ["src/sink/mod.rs: run (91-191)", "src/filter/mod.rs: run (77-113)", "src/bin/cernan.rs: main (780-815)"]}
{"id": "C87", "title": "The native source reads what any client of the protocol writes", "statement": "A payload means the same however a protocol buffers client lays it out: fields in any order and repeated (the last one counts, tags too), samples one by one or packed in any number of fields (all count, in order), unknown fields skipped; points and lines mixed.", "quantifier": "every layout of every payload", "why_tests_cant": "all encodings of all messages, of which the tests' own writer produces one", "anchors": ["src/protocols/native.rs: merge_from (134-151, 448-475, 865-908)", "src/source/native.rs: handle_stream (64-130), handle_stream_payload (134-206)"]}
{"id": "C88", "title": "Graphite lines do not depend on how their bytes arrive", "statement": "Whatever way the network cuts a client's text into arrivals, the graphite source handles the same lines, each once and in order, and the last line whether or not a line feed ends it.", "quantifier": "every text, every cut of it into arrivals, every moment of the close", "why_tests_cant": "all cuts of all texts", "anchors": ["src/source/graphite.rs: handle_stream (57-113)"]}
{"id": "C89", "title": "A line that is not UTF-8 disturbs no other line", "statement": "A graphite line with bytes that are not UTF-8 is dropped; the lines before and behind it are handled as if it were not there.", "quantifier": "every stream of lines and every cut of it into arrivals", "why_tests_cant": "needs all positions of bad lines relative to arrivals", "anchors": ["src/source/graphite.rs: handle_stream (57-113)"]}
{"id": "C90", "title": "The handler of a graphite connection ends with the connection", "statement": "When the peer closes a graphite connection, the thread that handles it ends; it also ends when the source is shut down, and never panics.", "quantifier": "every history of arrivals, close and shutdown", "why_tests_cant": "a statement about all histories of a thread that blocks in poll", "anchors": ["src/source/graphite.rs: handle_stream (57-113)", "src/source/tcp.rs: spawn_stream_handlers (179-230)"]}
{"id": "C91", "title": "cernan.graphite.telemetry.received counts points", "statement": "The internal metric cernan.graphite.telemetry.received is the number of points the graphite source has sent on.", "quantifier": "every stream of lines", "why_tests_cant": "needs all mixtures of one-point and several-point lines", "anchors": ["src/source/graphite.rs: handle_stream (57-113)", "src/protocols/graphite.rs: parse_graphite (9-47)"]}
{"id": "C92", "title": "A payload function acts on what its index names", "statement": "The index given to a payload function names a point or line of the payload: 1 is the first, -1 the last. That one and no other is read or changed. An index that names none is an error the script gets.", "quantifier": "every payload, every index, every function", "why_tests_cant": "all lengths and all 64 bit integers, negative ones included", "anchors": ["src/filter/programmable_filter.rs: idx (16-22), payload functions (58-397)"]}
{"id": "C93", "title": "metric_query answers the quantile asked for", "statement": "payload.metric_query(pyld, i, q) is the quantile q of the i-th point.", "quantifier": "every payload, index and quantile", "why_tests_cant": "all quantiles of all points; no test or example calls it", "anchors": ["src/filter/programmable_filter.rs: lua_metric_query (382-397)"]}
{"id": "C94", "title": "A script changes only what it asks to change", "statement": "A script that only asks passes each event on unchanged; and no script can change the value or time of a point, or the time or path of a line.", "quantifier": "every script, every event", "why_tests_cant": "quantifies over all scripts", "anchors": ["src/filter/programmable_filter.rs: payload functions (58-397), process (535-573), run_lua_func (576-618)"]}
{"id": "C95", "title": "A script's tag functions do what they say", "statement": "set_tag sets the tag and answers the old value, remove_tag removes it and answers the old value, tag_value answers the value or else the filter's own tag; other tags stay. A call without its key or value does nothing.", "quantifier": "every payload, every index that names a point or line, every key and value", "why_tests_cant": "all combinations of tags, of the event's and of the filter's", "anchors": ["src/filter/programmable_filter.rs: lua_*_tag* (167-379)", "src/metric/telemetry.rs: get_from_tags, insert_tag, remove_tag (604-647)", "src/metric/logline.rs (79-146)"]}
{"id": "C96", "title": "push_metric and push_log add one event", "statement": "push_metric adds one point with the given name and value, the filter's tags and the present time; push_log adds one line likewise; without a name or text nothing is added.", "quantifier": "every payload, every argument, every tags of the filter", "why_tests_cant": "all arguments, also wrong ones", "anchors": ["src/filter/programmable_filter.rs: lua_push_metric (95-115), lua_push_log (126-140)"]}
{"id": "C97", "title": "What a script pushes comes out in the order it was pushed", "statement": "The events a script pushes leave the filter in the order of the pushes.", "quantifier": "every sequence of pushes", "why_tests_cant": "all sequences of pushes of both kinds", "anchors": ["src/filter/programmable_filter.rs: run_lua_func (576-618)"]}
{"id": "C98", "title": "A script may fail any number of times", "statement": "However often a function of the script fails or is missing, the filter stays as it was: nothing of the failures is left on Lua's stack.", "quantifier": "every script, every sequence of events", "why_tests_cant": "needs unboundedly many failures; nothing is seen before memory runs over", "anchors": ["src/filter/programmable_filter.rs: run_lua_func (576-618)"]}
{"id": "C99", "title": "No two components of a configuration share an id", "statement": "The ids under which an accepted configuration file starts its sinks, filters and sources are all different.", "quantifier": "every configuration file, every order in which main walks its maps", "why_tests_cant": "quantifies over all files; the wiring properties rest on it", "anchors": ["src/config.rs: parse_config_file (217-1133)", "src/bin/cernan.rs: main (148-405)"]}
{"id": "C100", "title": "A sink flushes after its configured interval", "statement": "A sink is flushed after its own flush_interval, else after the global flush-interval, else after 60 seconds; n seconds are 100 n pulses of the flush timer.", "quantifier": "every sink of every file, every interval", "why_tests_cant": "all intervals of all kinds of sinks; tests parse one or two numbers", "anchors": ["src/config.rs: parse_flush_interval (154-165), sinks (446-816)", "src/source/flush.rs: flushes_per_second (17-22)", "src/sink/prometheus.rs: flush_interval"]}
{"id": "C101", "title": "A number outside its range is refused", "statement": "A port, limit or tolerance in the file that does not fit its type stops the start; one that fits is used as it stands.", "quantifier": "every number in every section", "why_tests_cant": "all numbers of 64 bits", "anchors": ["src/config.rs: sinks, filters and sources (310-1133)"]}
{"id": "C102", "title": "A section of the file concerns its own components only", "statement": "Two accepted files that differ in one section sinks.X, filters.X or sources.X give every component of other sections the same settings.", "quantifier": "all pairs of files, all sections", "why_tests_cant": "a relation between two runs over all files", "anchors": ["src/config.rs: parse_config_file (217-1133)"]}
{"id": "C103", "title": "The components started are those the file declares", "statement": "A component exists exactly if the file has its section, does not switch it off, and gives the options its kind requires.", "quantifier": "every accepted file, every id", "why_tests_cant": "quantifies over all files", "anchors": ["src/config.rs: parse_config_file (217-1133)"]}
{"id": "C104", "title": "Nothing in the configuration is ignored silently", "statement": "Every section of the file starts its component or stops the start, and every key has an effect or stops the start.", "quantifier": "every file", "why_tests_cant": "unknown keys and omitted options are unboundedly many", "anchors": ["src/config.rs: filters (310-443), sinks (446-816), files (823-864)", "examples/configs/basic.toml"]}
{"id": "C105", "title": "Every component has the global tags of the file", "statement": "Each component that carries tags carries exactly the tags of the file's tags section, with the values given there or found in the environment; no tag is left out.", "quantifier": "every file, every environment, every component", "why_tests_cant": "quantifies over files and environments", "anchors": ["src/config.rs: global tags (270-309)"]}
{"id": "C106", "title": "The last matching mapping of a statsd source decides", "statement": "Of the mappings whose mask matches a timer's name the last in the order of the table gives the bounds of the histogram; if none matches the timer stays a summary.", "quantifier": "every table of mappings, every name, every regular expression engine", "why_tests_cant": "all tables and all patterns", "anchors": ["src/config.rs: mapping (908-941)", "src/protocols/statsd.rs: masks"]}
{"id": "C107", "title": "The running process forwards as the file says", "statement": "Once everything runs, each source and filter sends to exactly the components listed in the forwards of its section, each once. (File sources of different paths.)", "quantifier": "every file that is accepted and starts, every component, every order of main's maps", "why_tests_cant": "composes parsing, validation and wiring for all files", "anchors": ["src/config.rs: parse_config_file (217-1133)", "src/bin/cernan.rs: main (75-787)"]}
{"id": "C108", "title": "The console prints each log line once", "statement": "Each line delivered to the console sink is printed once, by the next flush (shutdown is the last one), in the order of delivery, with its tags and those of the sink that it lacks.", "quantifier": "every history of deliveries and flushes that the sink survives", "why_tests_cant": "all histories and all tags", "anchors": ["src/sink/console.rs: deliver_line, flush (84-100), shutdown (197-199)"]}
{"id": "C109", "title": "The console reports the aggregation, each series and bin once", "statement": "Each flush lists every series and time bin held since the last flush once, with its aggregated value, under sums, sets, summaries or histograms; what is not to persist is in one report only. (Positive bin width; no two series that occur share their 64-bit hash.)", "quantifier": "every history of points and flushes, every bin width", "why_tests_cant": "the aggregation of all histories", "anchors": ["src/sink/console.rs: deliver (80-82), flush (102-194)", "src/buckets.rs: add, iter, reset"]}
{"id": "C110", "title": "The console's report tells series apart", "statement": "From the report one can tell the points of different series and times apart.", "quantifier": "every pair of histories", "why_tests_cant": "compares the outputs of pairs of histories", "anchors": ["src/sink/console.rs: flush (102-192)"]}
{"id": "C111", "title": "The console's own tags win over those of events", "statement": "As ConsoleConfig documents, the tags configured for the sink overwrite tags carried by the event.", "quantifier": "every line, every tags", "why_tests_cant": "all combinations of tags", "anchors": ["src/sink/console.rs: ConsoleConfig.tags (31-34), flush (94-100)"]}
{"id": "C112", "title": "The console sink survives whatever is delivered", "statement": "No line, point or setting makes the sink's thread panic.", "quantifier": "every history, every accepted configuration", "why_tests_cant": "all times and all bin widths", "anchors": ["src/sink/console.rs: flush (92-195), format_time (201-205)", "src/metric/telemetry.rs: within (816-828)"]}
{"id": "C113", "title": "Merging a zeroed point changes nothing", "statement": "is_zeroed is true of points without samples and of sums and sets of zero; merging such a point into one of its kind leaves what that shows.", "quantifier": "every pair of points of a kind", "why_tests_cant": "all values, also infinities and both zeros", "anchors": ["src/metric/telemetry.rs: is_zeroed (831-838), AddAssign (222-231)"]}
{"id": "C114", "title": "Every connection made to a TCP source gets one handler", "statement": "Each connection made to a listener of a TCP source is accepted and handed to a stream handler of its own, once, in the order in which the connections were made, as long as the source runs.", "quantifier": "every number of listeners, every order of arrivals, wake-ups, ends of handlers and answers of accept", "why_tests_cant": "quantifies over all interleavings of arrivals with the edge-triggered poll loop", "anchors": ["src/source/tcp.rs: run, accept_loop, handle_new_connections, spawn_stream_handlers (96-221)"]}
{"id": "C115", "title": "The thread of a connection that ended is joined while the source runs", "statement": "Whenever a TCP source has nothing left to do, every handler that ended by then has been joined: a source does not collect dead threads. (Fewer than 2048 listeners.)", "quantifier": "every execution", "why_tests_cant": "a leak of threads shows in long runs with some interleavings only", "anchors": ["src/source/tcp.rs: accept_loop (111-166)", "src/thread.rs: ThreadPool"]}
{"id": "C116", "title": "A TCP source announces its shutdown once, after its handlers are gone", "statement": "When told to stop a TCP source joins all its handlers, then sends one Shutdown to its forwards and returns; it sends Shutdown at no other time.", "quantifier": "every execution", "why_tests_cant": "all interleavings of the signal with connections and with panics of handlers", "anchors": ["src/source/tcp.rs: run, accept_loop (96-166)", "src/thread.rs: ThreadPool.shutdown"]}
{"id": "C117", "title": "Every datagram the kernel queued is parsed once, in order", "statement": "Each datagram queued on a socket of the statsd source is received once, in the order of arrival, and what the source sends and counts is what parsing them gives; when the source waits, none is left.", "quantifier": "every number of sockets, every order of arrivals, wake-ups and answers of recv_from", "why_tests_cant": "quantifies over all interleavings of arrivals with the edge-triggered poll loop", "anchors": ["src/source/statsd.rs: run (162-204), handle_datagrams (90-134)"]}
{"id": "C118", "title": "A datagram is parsed whole", "statement": "What the statsd parser is given is the text of the whole datagram.", "quantifier": "every datagram", "why_tests_cant": "the buffer's size matters for long datagrams only", "anchors": ["src/source/statsd.rs: run (175), handle_datagrams (99-101)"]}
{"id": "C119", "title": "The statsd source announces its shutdown once, last, and only when told", "statement": "When told to stop the statsd source sends one Shutdown after everything else and returns; it does so at no other time, and whatever it is doing it gets there. (Fewer than 2048 listeners.)", "quantifier": "every execution", "why_tests_cant": "all interleavings of the signal with datagrams", "anchors": ["src/source/statsd.rs: run (178-186)"]}
{"id": "C120", "title": "Every line and point is one call of the script, whether earlier calls failed or not", "statement": "A programmable filter calls process_metric or process_log once per point or line, in order; the script's state is what all calls made of it, failed ones included; downstream gets what each call left in its payload, or one counter named cernan.filter.<path>.<function>.failure per failed call. Besides there is one tick per new flush index as long as ticks succeed.", "quantifier": "every script, every stream of events", "why_tests_cant": "all scripts with all their states and failures", "anchors": ["src/filter/programmable_filter.rs: process, run_lua_func (535-618)"]}
{"id": "C121", "title": "A scrape shows the aggregation as it was at one moment, and takes nothing from it", "statement": "Every response of the prometheus endpoint is the exposition of the aggregation as the updates made it up to some moment between the request being taken up and the response; the updates are those the sink was told, in order, whatever scrapes come between; the sink waits only while a text is being written.", "quantifier": "every interleaving of deliveries, flushes and scrapes", "why_tests_cant": "quantifies over all interleavings of two threads around a lock", "anchors": ["src/sink/prometheus.rs: PrometheusHandler.handle (393-443), deliver, flush (656-669)", "src/http.rs"]}
{"id": "C122", "title": "Every scrape is answered", "statement": "Requests are taken up in the order they came, once each, and each is answered with status 200 and the exposition.", "quantifier": "every interleaving of deliveries, flushes and scrapes", "why_tests_cant": "depends on where the other thread is when the lock is tried", "anchors": ["src/sink/prometheus.rs: PrometheusHandler.handle (393-443)", "src/http.rs: http_server (31-66)"]}
{"id": "C123", "title": "The HTTP server of the prometheus sink stops when told", "statement": "After the sink's shutdown gives the signal, made after its last purge, the server takes up at most one more request and is over after at most five moves; shutdown returns only then.", "quantifier": "every state and schedule", "why_tests_cant": "all moments at which the signal may come", "anchors": ["src/sink/prometheus.rs: shutdown (671-674)", "src/http.rs: http_server (31-66)", "src/thread.rs: ThreadHandle.shutdown"]}
{"id": "C124", "title": "No point and no scrape takes the prometheus sink down", "statement": "Neither thread panics over a point or a scrape, so the endpoint goes on answering.", "quantifier": "every stream of points, every configuration", "why_tests_cant": "a panic with the lock held poisons it for the other thread; all interleavings", "anchors": ["src/sink/prometheus.rs: Accumulator.insert (150-194), write_text (499-610), deliver (661-669), PrometheusHandler.handle (393-443)"]}
{"id": "C125", "title": "An answer is written byte for byte, however the socket takes it", "statement": "write_all puts a prefix of its bytes on the wire, each byte once and in order, and the whole of them exactly when it succeeds; it fails only when a write fails, and completes once the peer took enough.", "quantifier": "every sequence of results of write, every answer", "why_tests_cant": "all ways of splitting, blocking and interrupting writes", "anchors": ["src/source/nonblocking.rs: write_all (8-33)"]}
{"id": "C126", "title": "An avro client gets the ids of its sync payloads back, in order", "statement": "Whatever the polls report, however the bytes arrive and the answers are taken, the avro source sends on one event per payload read, the payloads read are the first ones the client sent, and the bytes it answers are the eight-byte ids of those that asked, in that order; a client that closes without a shutdown got all of them when its connection is closed.", "quantifier": "every stream of payloads, every splitting, every sequence of poll results", "why_tests_cant": "quantifies over arrivals, polls and partial writes at once", "anchors": ["src/source/avro.rs: handle_stream (169-262), handle_avro_payload (302-343)", "src/source/nonblocking.rs: write_all (8-33)"]}
{"id": "C127", "title": "A payload that is refused ends its connection, and nothing else", "statement": "All payloads read on a connection were accepted except possibly the last; when that one is refused nothing of it is sent on, the answers before it are complete, nothing after it is looked at and the connection is closed. The counters tell accepted and refused payloads. For the native source this is what its stream sends on as a whole.", "quantifier": "every stream of payloads of the avro and native sources, every sequence of polls", "why_tests_cant": "all positions of a bad payload in all streams", "anchors": ["src/source/avro.rs: handle_stream (169-262)", "src/source/native.rs: handle_stream (64-130)"]}
{"id": "C128", "title": "A connection handler told to shut down ends", "statement": "Once the shutdown signal is reported to the handler of an avro or native connection the handler ends and closes the connection, having answered what it read.", "quantifier": "every connection in every state", "why_tests_cant": "all states of reader and writer in which the signal may come", "anchors": ["src/source/avro.rs: handle_stream (178-261)", "src/source/native.rs: handle_stream (72-129)", "src/source/nonblocking.rs: write_all (8-33)"]}
{"id": "C129", "title": "What a source sends gets where it is going", "statement": "While no thread is left standing and no valve stays closed for ever: every send ends; everything on the queue of a filter or sink is taken and a sink delivers it, in order, unless the node has stopped; and if no queue is ever full, data a source sends is delivered by every sink it has a way to through filters that hand it on, unless something on that way has stopped.", "quantifier": "every configuration, every filter, every fair infinite execution", "why_tests_cant": "executions go on for ever; no test sees one, nor all schedules", "anchors": ["src/util.rs: send (28-68)", "src/filter/mod.rs: run (69-114)", "src/sink/mod.rs: consume (80-196)", "src/bin/cernan.rs: main"]}
{"id": "C130", "title": "A sink is flushed for every pulse that is due", "statement": "A running sink that a source has a way to, be it through filters, is flushed for each of the first 2^64 pulses of the timer that its flush interval divides, as long as the queues before it take the pulses; and never for a pulse that has not come.", "quantifier": "every configuration, every interval, every pulse, every fair infinite execution", "why_tests_cant": "the claim is about all pulses of an endless run under all schedules", "anchors": ["src/source/flush.rs: run (31-48)", "src/sink/mod.rs: consume (112-191)", "src/util.rs: send (28-68)"]}
{"id": "C131", "title": "A failing read disturbs no other line and no other file", "statement": "When a read of a watched file fails, the file source goes on with the same lines it would send had that read found the end of the file; no other file's lines are touched and the thread lives.", "quantifier": "every set of files, every sequence of reads and failures, every change of the files between rounds", "why_tests_cant": "errors of read(2) come at any byte of any file in any round", "anchors": ["src/source/file/file_watcher.rs: read_line (118-184)", "src/source/file/file_server.rs: run (77-177)"]}
{"id": "C132", "title": "After the signal the process comes to its end with everything stopped and delivered", "statement": "When main returns every source, filter and sink has ended and none has panicked, and the sinks have delivered what was sent to them; after the signal main does return; sources are told to stop one after the other; main panics only over a thread that panicked.", "quantifier": "every configuration, every fair execution with signals and panics at any time", "why_tests_cant": "quantifies over all schedules of all threads with main beside them, for ever", "anchors": ["src/bin/cernan.rs: main (61-65, 795-806)", "src/thread.rs: ThreadHandle (35-48)", "src/source/flush.rs", "src/filter/mod.rs: run (69-114)", "src/sink/mod.rs: consume (80-196)"]}
{"id": "C133", "title": "A line sent to a console is shown", "statement": "A line a source sends is shown by every console there is a way to through filters that hand it on, within the run: with its time, path, value and tags, once and after the lines that came before; a console that stops has shown all lines delivered to it, and when main returns every console has shown every line that arrived on its queue (one upstream each, queues never full). Conditions: the filters on the way hand the pulses of the timer on, the times can be written, nothing on the way has stopped, and the timer's counter of 2^64 is not near its end.", "quantifier": "every configuration, every fair execution, every line at any time, every flush interval, any dates and clock", "why_tests_cant": "from the emission of a line to the printed row pass several threads, queues and pulses of the timer; no test runs all schedules", "anchors": ["src/sink/console.rs: deliver_line, flush, shutdown (85-201)", "src/sink/mod.rs: consume (80-196)", "src/source/flush.rs: run (31-48)", "src/filter/mod.rs: run (69-114)", "src/util.rs: send (28-68)"]}
{"id": "C134", "title": "A component's settings are those of its section, or the defaults", "statement": "Every text, switch and number a component uses is the one under its key in the component's section (a number as far as the setting can hold it), or the default if the key is missing; so with the padding and percentiles of the wavefront sink, the options handed to librdkafka, the path and read size of file sources, the script of a programmable filter, the error bound of statsd summaries, and the directories and queue sizes of the process. A statsd, graphite or avro source that is started forwards somewhere.", "quantifier": "every configuration file, every component, every setting", "why_tests_cant": "about ninety settings in eighteen kinds of component, each present or missing in any combination", "anchors": ["src/config.rs: parse_config_file (217-1133)", "src/sink/wavefront.rs: Default (108-138)", "src/sink/elasticsearch.rs: Default (88-102)", "src/sink/kafka.rs: Default (93-104)"]}
{"id": "C135", "title": "An avro client that was answered has its payload in kafka, or kafka refused it for good", "statement": "With a kafka sink behind an avro source: at the moment the source answers a payload of a connection all of whose payloads ask for an answer, a record of that very payload (its avro bytes, key, metadata) was given to kafka and the broker's answer to it was a confirmation or an error that is not retried; if the broker refuses nothing for good, it was confirmed.", "quantifier": "every interleaving of any number of connections, the queue, the sink and its flushes; every sequence of broker answers", "why_tests_cant": "spans four threads, three modules and the broker; the acknowledgement carries only the connection", "anchors": ["src/source/avro.rs: handle_avro_payload (296-345)", "src/metric/ackbag.rs: SyncAckBag (28-98)", "src/sink/kafka.rs: deliver_raw, flush, await_inflight_messages"]}
{"id": "C136", "title": "An avro client waiting for an answer can still get it", "statement": "A client that sent a payload asking for an answer can, whatever has happened so far, still be answered: some continuation of the run answers it, provided the broker stops asking for retries, the metadata keys are text and the sink may hold at least a byte.", "quantifier": "every interleaving of any number of connections, the queue, the sink and its flushes; every sequence of broker answers", "why_tests_cant": "a client stuck for ever is not seen by any finite test", "anchors": ["src/source/avro.rs: handle_avro_payload (296-345)", "src/util.rs: send (28-68)", "src/metric/ackbag.rs: SyncAckBag (28-98)"]}
{"id": "C137", "title": "A waiting avro handler looks again after 5 to 250 milliseconds", "statement": "While no acknowledgement has come the handler sleeps 5 ms, then twice as long each time but never longer than 250 ms, and it returns at the first look that finds an acknowledgement or no entry.", "quantifier": "every sequence of looks", "why_tests_cant": "the lengths of the sleeps are not observable in a test but as time", "anchors": ["src/metric/ackbag.rs: wait_for, wait_for_callback (76-98)"]}
{"id": "C138", "title": "A sink is flushed after everything delivered to it", "statement": "An event a source sends is delivered to every sink there is a way to through filters that hand it on, and that sink is flushed after the delivery, within the run; a sink that stops was flushed after everything delivered to it; when main returns the last thing a sink did was that flush, after every data event that arrived on its queue (one upstream each, queues never full). Conditions: the filters on the way hand the pulses of the timer on, nothing on the way has stopped, no queue is full and the timer's counter of 2^64 is not near its end.", "quantifier": "for all topologies, filters, fair executions, events and times", "why_tests_cant": "which of the threads runs next, and when the timer fires, no test controls; the claim is about endless runs", "anchors": ["src/sink/mod.rs:80-195", "src/source/flush.rs:20-49", "src/bin/cernan.rs:560-640"]}
{"id": "C139", "title": "A point sent to an InfluxDB sink is taken by the server", "statement": "Under the conditions of C138: whatever the server answers, once the flush after its delivery has ended the point is in the body of a request the server answered with a success; all points are, each in the batch of one flush and in the order they were delivered, and each batch is posted until it is accepted and not once more. When main returns this holds of every point that arrived.", "quantifier": "for all topologies, executions, points and sequences of answers", "why_tests_cant": "needs all interleavings and all sequences of answers", "anchors": ["src/sink/influxdb.rs:231-287", "src/sink/mod.rs:80-195"]}
{"id": "C140", "title": "A line sent to an elasticsearch sink is offered to the server", "statement": "Under the conditions of C138: whatever the server answers, as long as the sink does not panic, the line is in a bulk request as a document of its id, in the index of its day, with its fields over its tags over the configured tags. A line that is not stored when the sink has stopped was refused more often than the limit (below 255), or was asked for in the very last request, whose answer does not say it was stored.", "quantifier": "for all topologies, executions, lines and sequences of answers", "why_tests_cant": "needs all interleavings and all sequences of answers", "anchors": ["src/sink/elasticsearch.rs:126-157", "src/sink/elasticsearch.rs:180-348", "src/sink/mod.rs:80-195"]}
{"id": "C141", "title": "A point sent to a wavefront sink is written", "statement": "Under the conditions of C138, without an age threshold and with a positive bin width: once the flush after its delivery has ended, the point is part of a text that was written completely on a connection: its series and time bin have a point there, which (if no point persists) is the in-order merge of the points of that series and bin delivered since the flush before, this one among them. (No two series that occur share their 64-bit hash; equal numbers are written alike.)", "quantifier": "for all topologies, executions, points, and failures of connections", "why_tests_cant": "needs all interleavings and all sequences of network failures", "anchors": ["src/sink/wavefront.rs:389-457", "src/sink/wavefront.rs:608-651", "src/sink/mod.rs:80-195"]}
{"id": "C142", "title": "What arrives at the native sink of one process is emitted by the native source of another", "statement": "Under the conditions of C138, over one connection that holds: every point and line delivered to a native sink and flushed after is emitted by the native source at the other end, with name, kind, value, persistence, time and tags, the sink's tags below its own; one batch per flush in order, points before lines; and nothing else is emitted. When main of the first process returns this holds of every point and line that arrived at the sink.", "quantifier": "for all topologies, executions, events, tags, sizes of write buffers and ways to cut the byte stream", "why_tests_cant": "two processes and a byte stream cut anywhere; needs all interleavings", "anchors": ["src/sink/native.rs:104-208", "src/source/native.rs:60-206", "src/sink/mod.rs:80-195"]}
{"id": "C143", "title": "The file watcher agrees with the project's own reference", "statement": "The tests of the file source drive a watcher and a small reference file side by side. Without truncations the watcher returns, for every sequence of writes, rotations and reads, exactly the lines the reference returns and nothing when it returns nothing. With truncations anywhere it never returns more lines than were written and at least as many as the reference, and neither panics. (Lines are ASCII and not blank, as the tests generate them; blank lines are allowed in the second part. A blank line in a file rotated away makes the reference, not the watcher, go wrong.)", "quantifier": "for all sequences of actions, lines and buffer capacities", "why_tests_cant": "the project tests it on ten thousand random sequences of at most a hundred actions", "anchors": ["src/source/file/mod.rs:46-148", "src/source/file/mod.rs:195-402", "src/source/file/file_watcher.rs:118-184"]}
{"id": "C144", "title": "What the buffer's randomized tests sample holds of every sequence of points", "statement": "Adding any points to an empty buffer of any positive bin width leaves one point for each pair of series and bin that occurs among them and for no other pair; the names that come out are the names that went in; and count() is the number of such pairs, saturating at 2^64-1. After a reset, and after any further resets, exactly those series are left whose newest bin was last given a point to persist, one point each; so points none of which persists leave nothing, and points all of which persist leave every series. Rounds of the same points with resets between them show, in every round, the names that went in. Points to persist arriving in the order of their bins make running totals: a bin's value is the in-order merge of everything its series received up to that bin. The count the tests compute themselves, by name and time, is not the buffer's: two tag sets of one name are two series.", "quantifier": "for all lists of points of any kinds, names, tags and times, all bin widths, all times and numbers of resets, all hash functions without collisions on the series that occur", "why_tests_cant": "the tests draw at most some hundred points over few names with default tags, so that series and name coincide; the count by name that they assert is false of the code in general", "anchors": ["src/buckets.rs:386-440 (variable_size_bins)", "src/buckets.rs:790-1076 (randomized tests)", "src/buckets.rs:100-196 (reset, add, count)"]}
{"id": "C145", "title": "A scraper reads back what the prometheus sink exposes", "statement": "A reader of the text format, written from the description of that format (lines, TYPE lines, names, labels with escapes, values; no second TYPE line of a name, no label twice), accepts the body of every scrape and reads from it, point by point, the TYPE line and the samples with all their labels and values. This holds when every point's name is, once sanitized, a metric name and different from the others', every tag's key is a label name other than le and quantile, and no tag's value has a quotation mark, a backslash or a line feed. It does not hold otherwise: tags are written as they are, and one point that does not fit makes the scraper reject the whole text, all other metrics included.", "quantifier": "for all histories of the aggregation, all orders of the metrics, all default tags, all ways to print numbers with letters, digits, points and signs", "why_tests_cant": "the tests of the sink sanitize names and count points; none parses an exposition, and no number of expositions of good tags shows what one odd tag does", "anchors": ["src/sink/prometheus.rs:446-628 (write_kv, write_tags, write_metric, write_type, write_text, sanitize)", "src/sink/prometheus.rs:386-440 (http answer)"]}
{"id": "C146", "title": "A point holds what its builder was told last", "statement": "Whatever methods of the builder are called, in whatever order and however often: the point that comes out has the name, time, tags, persistence, kind, value, histogram bounds and quantile error that were given last, and defaults for what was never given; only what was said last of each thing matters. A thawed point keeps what is not said again. A chain of calls panics only for bounds with a NaN among several. A count or a sum of samples told to a point that is no summary is lost, and a thawed point told another kind without a value keeps its kind.", "quantifier": "for all sequences of calls with all arguments", "why_tests_cant": "ten methods in any order and number", "anchors": ["src/metric/telemetry.rs:261-364", "src/metric/telemetry.rs:366-498", "src/metric/telemetry.rs:553-568"]}
{"id": "C147", "title": "What the sources take as text is Unicode text", "statement": "The bytes accepted as text are exactly the UTF-8 encodings of lists of Unicode scalar values, each of one list only. A graphite connection on which lines arrive whole handles, in order, exactly the lines that are such encodings; the others leave no trace.", "quantifier": "for all byte strings and all lists of characters", "why_tests_cant": "needs every character and every malformed sequence", "anchors": ["src/source/graphite.rs:79-107"]}
{"id": "C148", "title": "What the padding's randomized tests sample holds of every list of points", "statement": "The wavefront sink's padding, whatever the points, their order, kinds, names and times, the bin width, the kinds to pad and what was seen before: with no kind to pad the points come out as they went in; there are never three inserted zeros in a row; what comes out and does not read as zero is, in order, exactly the points that do not read as zero. When every kind is padded and nothing was seen before, two neighbours of one series that are two widths or more apart are both inserted zeros - except when their times lie so far apart that the difference overflows.", "quantifier": "for all lists of points, bin widths, padding settings, histories", "why_tests_cant": "the tests draw lists of at most some hundred points with random times, and skip the overflow", "anchors": ["src/sink/wavefront.rs:156-387", "src/sink/wavefront.rs:794-961"]}
{"id": "C149", "title": "A point sent to a prometheus sink shows in later scrapes", "statement": "A point that a source sends reaches every prometheus sink there is a way to, through filters that hand it on, unless something on that way has stopped or a queue is full. Once the sink has carried out the calls made of it, whatever its thread and the server's thread do meanwhile, every answered later request shows the metric of that name and kind, made of all points of it the sink took by then (those within its age threshold), this one among them; a scraper reads it from the text. A summary, while its samples are in the window, shows with the number of its points. This needs that the first point of that name was of the same kind: otherwise the answers are as if it had not been sent.", "quantifier": "for all topologies, fair executions, points, schedules of the sink's and the server's threads, requests", "why_tests_cant": "the tests never start the server; the claim crosses three threads and the whole process", "anchors": ["src/sink/prometheus.rs:279-310", "src/sink/prometheus.rs:386-443", "src/sink/prometheus.rs:631-674", "src/sink/mod.rs:112-191", "src/http.rs:28-66"]}
{"id": "C150", "title": "cernan's clock follows the wall clock", "statement": "Every reading of cernan's clock, by which points are stamped and expire, is what the wall clock said at some instant not after the reading; and not more than d before it, when the thread that updates the clock never takes longer than d for a round. So with rounds of at most a second it is the second of the wall clock or the one before. It never goes back, when it was read before the updater first asks for the time and the wall clock is not set back; otherwise it may: the static is filled in at its first use, and the updater may then store an older second over it.", "quantifier": "for all wall clocks, all interleavings of the updater with readers, all delays", "why_tests_cant": "a race at start-up and a clock set back: neither happens in a test", "anchors": ["src/time.rs:11-40", "src/bin/cernan.rs:787-789"]}
{"id": "C151", "title": "Numbers and words in text lines are read as written", "statement": "A timestamp is read exactly when it is an integer in decimal, signed or not, within the range of 64 bits, and as that integer. A value is read exactly when it is a decimal number, perhaps with fraction and exponent, or one of the names of what is not a number; a decimal is read as the float nearest to it, ties to the even one, and beyond the largest as infinity; a whole number below 2^53 exactly. Words of a graphite line are what stands between white space of Unicode. So a graphite line becomes the point it says, and so does a statsd counter or gauge.", "quantifier": "for all texts", "why_tests_cant": "infinitely many texts; rounding goes wrong only at rare ones", "anchors": ["src/protocols/graphite.rs:14-27", "src/protocols/statsd.rs:44"]}
{"id": "C152", "title": "Nothing a client can write stops a sink", "statement": "No line sent to a statsd source makes a point at which an InfluxDB sink panics when it is flushed.", "quantifier": "for all packets and all states of the sink", "why_tests_cant": "needs the odd values a parser accepts to travel through two components", "anchors": ["src/protocols/statsd.rs:44-100", "src/sink/influxdb.rs", "src/sink/influxdb.rs:88-100"]}
{"id": "C153", "title": "Whole counts add up exactly", "statement": "Counters of whole numbers, as clients write them, add up to exactly their total in the buffer, for each name and time bin, as long as the counts, signs left aside, come to at most 2^53; so do points merged anywhere, the sums of samples of summaries, and the points cernan reports of its own counters. From 2^53 on a counter counting ones stands still.", "quantifier": "for all names, counts, orders and times", "why_tests_cant": "exactness of floating-point sums depends on every partial sum", "anchors": ["src/metric/telemetry.rs:180-232", "src/buckets.rs: add", "src/protocols/statsd.rs:44-100", "src/source/internal.rs:65-97"]}
{"id": "C154", "title": "What a client writes is what a server gets", "statement": "A counter or gauge in a datagram that the statsd source has read - alone in it, a name and a decimal number - is, in every fair execution, at some later time taken by the InfluxDB server of every sink it leads to: in an accepted request, on a line of its own with this name, the tags of source and sink, the float nearest to the number and the time of its arrival. So is a line heard over a graphite connection, with its own time. Every line of a watched file that the file source took, not blank and UTF-8, is asked to be stored by the elasticsearch sink it leads to, with the path of the file and its text. So are they written to wavefront, merged with what came of the same name, tags and bin, and shown in later scrapes of a prometheus sink; and lines of files are shown on the console. Other lines and datagrams, good or bad, change nothing of this; unless a thread on the way has stopped or a queue was full.", "quantifier": "for all texts of names and numbers, topologies, fair executions, runs of sources and sinks, answers of servers", "why_tests_cant": "crosses parser, rounding, source, filters, routing, buffering and retry; tests stop at each", "anchors": ["src/source/statsd.rs:96-131", "src/source/graphite.rs", "src/source/file/file_server.rs:89-176", "src/protocols/statsd.rs", "src/protocols/graphite.rs", "src/sink/influxdb.rs:100-283", "src/sink/elasticsearch.rs"]}
{"id": "C155", "title": "A sampled value counts for as many as it stands for", "statement": "A statsd line 'name:v|type|@r' with decimal numbers v and r makes one point whose value is v divided by r, with the sign of the quotient, but for one part in 2^50: reading both, taking the reciprocal and multiplying round four times. For v zero or between 10^-100 and 10^100 in size, r between 10^-100 and 10^100.", "quantifier": "for all names, texts of numbers, types, configurations", "why_tests_cant": "depends on four roundings for every pair of numbers", "anchors": ["src/protocols/statsd.rs:44-130"]}
{"id": "C156", "title": "Whole counts sampled at one in n are scaled exactly", "statement": "A counter or gauge of a whole number z with the rate 1/n makes a point of exactly z*n.", "quantifier": "for all whole numbers with z*n up to 2^53 and all n", "why_tests_cant": "1/(1/n) is n for most n only; tests use 0.1", "anchors": ["src/protocols/statsd.rs:44-130"]}
{"id": "C157", "title": "A counter never goes down between scrapes", "statement": "Of two answers of the prometheus endpoint, the later shows every counter, gauge and histogram of the earlier, merged from the same points and, after them, those that came between; a summary, if still shown, with the count of all its points. A counter whose points are never negative and always numbers has in the later answer at least the value of the earlier, rounding included; sums beyond the greatest float stay infinite.", "quantifier": "for all interleavings of the two threads, points, numbers of scrapes", "why_tests_cant": "depends on which updates fall between two snapshots and on rounding of every partial sum", "anchors": ["src/sink/prometheus.rs:140-420", "src/sink/prometheus.rs:640-720", "src/metric/telemetry.rs:180-232"]}
{"id": "C158", "title": "A scraped counter is the exact total of whole counts", "statement": "If all points of a counter are whole counts that come, signs left aside, to at most 2^53, then a scraper reads from every later answer exactly the total of the counts taken so far: those delivered before the request and the first few of those delivered meanwhile. This for names and tags that fit the text format and names different once sanitized.", "quantifier": "for all counts, orders and interleavings", "why_tests_cant": "composes the interleaving, the merging with rounding, the text written and its reading", "anchors": ["src/sink/prometheus.rs:140-420", "src/metric/telemetry.rs:180-232"]}
{"id": "C159", "title": "Counts delivered to the wavefront sink are each written once", "statement": "Whatever the order of deliveries and flushes, refused writes and connections: the sums written for a series over all flushes, zeros of padding included, and those still held make up exactly the total of the whole counts delivered for it; after a flush nothing of it is held, so that whoever adds up the values received, in floats and in their order, has the total. So for counts as clients of the statsd source write them, whatever other points, persisting ones among them, come between. Points not to persist, counts up to 2^53 in all, no age threshold.", "quantifier": "for all histories of deliveries and flushes, bin widths, padding modes, other series", "why_tests_cant": "depends on which bin and which flush every count falls in, and on what resets keep", "anchors": ["src/sink/wavefront.rs:380-660", "src/buckets.rs:60-330", "src/metric/telemetry.rs:180-232"]}
{"id": "C160", "title": "When the process has ended, wavefront was told of every count", "statement": "When main has returned after its signal, nothing having two upstreams and no queue having been full: the sums a wavefront sink wrote for a series, over all flushes and with all refusals of the network, make exactly the total of the whole counts that the threads of the source before it sent for that series. For any sink that has stopped, however the process was wired: the total of the counts delivered to it.", "quantifier": "for all interleavings of the threads, histories of flushes and network answers, counts up to 2^53 in all that do not persist", "why_tests_cant": "joins source threads, queues, flush timer, shutdown, bins, resets and retries; no test stops a running process", "anchors": ["src/bin/cernan.rs:790-807", "src/sink/mod.rs:80-200", "src/sink/wavefront.rs:380-660", "src/buckets.rs:60-330"]}
{"id": "C161", "title": "When the process has ended, wavefront was told of every count clients wrote", "statement": "When main has returned after its signal, a statsd source before a wavefront sink, nothing having two upstreams and no queue having been full: the sums the sink wrote under a name make exactly the total of the counts for that name in the datagrams the source took, one or many to a datagram and among lines of other names, whatever else came to the source: bytes that are not UTF-8, and packets with bad lines in any place as long as none of their lines is of the name (C30 tells what happens to those).", "quantifier": "for all datagrams, sockets, interleavings of threads, flushes and network answers; whole counts, 2^53 in all, signs left aside", "why_tests_cant": "joins the sockets, the reading of text and numbers, threads, queues, bins, flushes, retries and shutdown", "anchors": ["src/source/statsd.rs:80-200", "src/protocols/statsd.rs:30-150", "src/bin/cernan.rs:790-807", "src/sink/wavefront.rs:380-660", "src/buckets.rs:60-330"]}
{"id": "C162", "title": "What -v shows in the log, and what a log line tells", "statement": "Given n times, -v makes the log show errors, and warnings from one on, information from two, debugging from three, everything from four; one more never hides or changes a line. From a line the module, the line number, the time, the severity and the message can be read back, whatever the message holds.", "quantifier": "for all numbers of flags and all records with a module path and a line number, as the log macros make them", "why_tests_cant": "messages and flags are unbounded; tests look at no log", "anchors": ["src/bin/cernan.rs:76-104", "src/config.rs:171-199"]}
{"id": "C163", "title": "When the process has ended, InfluxDB has taken every point once", "statement": "When main has returned after its signal, nothing having two upstreams and no queue having been full: whatever the server refused meanwhile, the requests it took from an InfluxDB sink hold exactly the points that the source before it sent, each in one of them; those of a source with one thread in the order they were sent. Of a statsd source: the lines of a series are the counts clients wrote under its name, one line for each, in their order and with its value, whatever else came to the source. A sink that has stopped, however the process was wired, has had exactly the points delivered to it taken.", "quantifier": "for all interleavings of the threads, histories of flushes, answers of the server and datagrams", "why_tests_cant": "joins sockets, parsing, threads, queues, flush timer, retries and shutdown; no test stops a running process", "anchors": ["src/bin/cernan.rs:790-807", "src/sink/mod.rs:80-200", "src/sink/influxdb.rs:231-290", "src/source/statsd.rs:60-190"]}
{"id": "C164", "title": "The integers cernan writes read back", "statement": "The text of a time or a count is the decimal writing of it - a minus sign if it is negative, no other sign and no noughts before - and reads back as that integer; different integers have different texts, all fit for prometheus' text format. So, where whole floats are written as the integers they are, the counter a scraper reads is a text that reads as the total of the counts.", "quantifier": "for all integers", "why_tests_cant": "numbers of any length; a test writes a few", "anchors": ["src/sink/wavefront.rs:345-360", "src/sink/influxdb.rs:88-100", "src/sink/prometheus.rs:470-600"]}
{"id": "C165", "title": "When the process has ended, InfluxDB has taken a point for every line graphite clients wrote, once", "statement": "A graphite connection over which lines are heard that are each a name, a decimal number and a time, or unreadable (fewer than three words, or a second word that is no number, or a third that is no time), sends exactly one point for each of the former, in their order, with that name and time, the tags of the source and the float nearest to the number. When main has returned after its signal, nothing having two upstreams and no queue having been full, an InfluxDB sink behind a graphite source has had exactly the points of the lines of all connections taken, each once, whatever the server refused meanwhile.", "quantifier": "for all numbers of connections, cuts of their bytes into arrivals, interleavings of the threads, flushes and answers of the server", "why_tests_cant": "joins sockets, UTF-8, parsing, threads, queues, flush timer, retries and shutdown; no test stops a running process", "anchors": ["src/source/graphite.rs:58-116", "src/protocols/graphite.rs:9-47", "src/bin/cernan.rs:790-807", "src/sink/influxdb.rs:231-290"]}
