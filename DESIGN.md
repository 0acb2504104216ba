# Formal model of cernan: design

The code under study is postmates/cernan (Rust) in `/repo`. Nothing is built or
run; every definition of the model cites the file and lines it transcribes.

## Layout

`rocq/theories/` holds, per subsystem `X`:

* `XModel.v`  -- total computable Gallina functions, one per Rust function, no proofs;
* `XSpec.v`   -- (where needed) the independent specification a reader has to trust;
* `XProofs.v` -- lemmas;
* `XProps.v`  -- only the property theorems (`exact lemma`), the examples that
  show their hypotheses are met, and `Print Assumptions`.

Theorem names start with the property id: `C01_...`. A theorem named
`..._refuted` exhibits a concrete counterexample to the full property in the
faithful model: the code violates the property as stated. A theorem named
`..._partial` proves a part; the comment beside it says what is missing.

## Conventions of the model

* `f64` is `SpecFloat.spec_float` of Coq's standard library with precision 53 and
  exponent bound 1024: IEEE 754 binary64 defined in Gallina (`SFadd`, `SFmul`,
  `SFcompare`, ...), with NaN, infinities and signed zeros. No axioms. That
  rounding to nearest, conversion of whole numbers and sums are what IEEE 754 asks
  is proved in `RoundProofs.v` and `ArithProofs.v`, not assumed.
* `i64`/`u64`/`usize` values are `Z`, `N` or `nat`. Wrap-around is written out
  where a property is about it; elsewhere the absence of overflow is a recorded
  simplification.
* A Rust panic (`unwrap`, index, `assert!`) is an explicit error value wherever
  it is reachable in the modelled function.
* A hash map is an association list without duplicate keys; its list order is
  one possible iteration order of the Rust map.  Theorems are stated through
  lookup so that they do not depend on the order unless they say so.
* `binary_search_by` is modelled by the algorithm of the Rust standard library
  (repeated halving), proved to meet its contract on sorted input.
* External libraries (`quantiles`, `hopper`, `mio`, `rdkafka`, `elastic`,
  `serde_json`, `protobuf`, `mond`, sockets, files, the clock) are oracles:
  section variables or explicit answer lists over which theorems quantify.

## Properties: what is modelled and how it is proved

| id | model | method |
|----|-------|--------|
| C01-C05 | `Buckets` over `Telemetry` with the two binary searches | refinement to a map from (series, bin) to the merged point; invariants by induction over operations |
| C06-C09 | `Value` addition, `AddAssign`, builder, `harden`, `thaw` | case analysis, induction over runs; C07, C08 refuted with witnesses plus the part that holds |
| C10, C11 | tag maps, `TagIter`, tag mutators | lookup laws over association lists |
| C12, C13 | `within`, `cmp_tagmap` | arithmetic on truncating division; C12 and C13 refuted in general, proved for non-negative timestamps / present maps |
| C14 | `util::send` over queues with per-attempt answers | induction over the channel list and the answer streams |
| C15-C17 | `Filter::run` as a fold over received events | induction over the event list; C16 refuted with the programmable filter's `tick` |
| C18 | network of filters with FIFO queues, one step per node | refuted by a schedule; proved for topologies where each filter has one upstream |
| C19 | delay filter | list induction; boundary refuted against the documentation |
| C20, C21 | flush boundary filter | invariant: holds are sorted by timestamp; refinement to a history function; C21 refuted |
| C22 | JSON encode filter, `merge_objects`; parser, clock formatting and printer are oracles | lookup law |
| C23 | programmable filter's `process`, script is an oracle | induction over the stream |
| C24-C26 | `Sink::consume` over a sink with arbitrary state, valve and flush behaviour | induction; C26 refuted (inner loop re-reads the same marker) |
| C27, C28, C30 | `parse_statsd` byte by byte, `handle_datagrams`; float parsing is an oracle | equivalence to a declarative grammar; C30 refuted, part proved |
| C29, C30 | `parse_graphite`, `handle_stream` | equivalence to a triple specification |
| C31, C32 | `BufferedPayload` over a stream of arrivals | induction over arrivals; refuted for splits inside the length prefix and for zero length |
| C33, C34 | avro header/metadata codec, ack bag, handler and sink as interleaved steps | round trip; invariant over all schedules |
| C35-C37 | Kafka sink with broker answers as oracle | induction over rounds; C36 refuted |
| C38 | Elasticsearch buffer with per-item answers | invariant over histories |
| C39-C41 | Wavefront `Padding` iterator with its emit queue | simulation of the queue; C41 refuted, part proved |
| C42, C58 | flush loops with failing connections | induction over the failure sequence |
| C43 | sorted string cache | binary search contract; refuted for NaN (panic) |
| C44-C49 | Prometheus accumulators, aggregation, exposition | invariants over histories; C46, C48 (injectivity), C49 refuted in part |
| C50, C60, C71, C72 | native source and sink over the protobuf wire format, byte by byte | parser/printer inverse by induction over fields; C50, C71, C72 refuted with witnesses plus the part that holds |
| C51, C73 | `Adjacency` and the wiring phase of `main` | map laws; refuted for filters forwarding to each other |
| C52, C53, C59 | back-off table, flush timer, token slab | direct |
| C54, C74 | thread pool under interleavings | invariant; C74 refuted |
| C55, C56 | file watcher over a file with append/truncate/rotate steps | invariant; C56 refuted |
| C57 | atomic counters under interleaved increments and sweeps | invariant |

Nothing in the list is inexpressible. Runtime behaviour outside every model:
real thread scheduling fairness, timing of naps, memory exhaustion, the disk
queue `hopper`, the Lua interpreter, TLS/HTTP libraries, the kernel.

## Trusted base

* Coq 8.16.1's kernel (and `coqchk`, which `vcheck` runs over the compiled files).
* `Print Assumptions` is printed in the `XProps.v` files for every theorem of
  `MANIFEST.json`: each prints `Closed under the global context`. There are no
  axioms of ours and none of the standard library below any theorem. `coqchk`
  additionally lists the seven constants of the opaque module
  `Coq.ssr.ssrunder.Under_rel` as library axioms: the file is loaded by the
  standard library (through `lia`), no theorem depends on it.
* The reading of the Rust code: each definition cites the lines it transcribes and
  names its simplifications.
* The specifications in `XSpec.v` and in the theorem statements.

## What is modelled, what is not

| file in /repo/src | modelled | not modelled |
|---|---|---|
| `metric/*.rs` | values, builder, addition, tag operations, `within`, orders, acknowledgement bag | the `quantiles` crate (class `QLib`, with count laws), serde derives |
| `buckets.rs` | all operations; what its randomized tests check, in closed form (`BinsSpec.v`) | |
| `matrix.rs`, `bin/cernan.rs` | the adjacency matrix; declaring, validating and starting of `main`; which log records are written and how (`LogModel.v`) | argument parsing (clap's counting of -v), writing to stdout |
| `config.rs` | from the parsed TOML value to the settings of all components and to what main wires (`ConfigModel.v`; every key with its default in `SettingsSpec.v`) | the text of the file (`toml` crate), parsing of the command line, warnings; environment, Display, path joining and validity of expressions are the class `Host` |
| `thread.rs`, `source/flush.rs` | thread pool, flush timer | mio registrations, sleeping |
| `util.rs`, `time.rs` | `send`, `Valve`, `TokenSlab`, back-off, the clock and its updater (`ClockModel.v`; the wall clock is any function of the instant) | mio polling |
| `filter/*.rs` | `Filter::run`, delay, flush boundary, JSON encode, the programmable filter's `process`; its payload functions and the height of Lua's stack (`PayloadModel.v`) | the Lua interpreter (scripts are trees of calls, conversions of values the class `LuaLib`), scripts that never end |
| `sink/mod.rs` | `consume` | |
| `protocols/statsd.rs`, `protocols/graphite.rs`, `source/statsd.rs`, `source/graphite.rs` | parsers, the datagram handler, the poll loop of the statsd source over its UDP sockets (`DatagramModel.v`), the loop of a graphite connection (`GraphiteModel.v`) with std's `read_line` and UTF-8 validation (`Utf8.v`, shown to accept exactly the encodings of Unicode text in `UnicodeProps.v`; which lines are heard whatever arrives, `HearSpec.v`) and std's reading of integers, floats and words (`NumberModel.v`, after std's documentation; the theorems of `ParseProps.v` hold for every such reader, those of `NumberProps.v` of this one; rounding to nearest proved in `RoundProofs.v`, sampled values in `SampleProofs.v`, the rates that keep counts whole in `RecipProofs.v`) | the algorithm std reads floats with (only its documented result), sockets |
| `source/nonblocking.rs` | `BufferedPayload`, `write_all`; what is read however bytes arrive, `CutSpec.v` | mio |
| `source/tcp.rs` | the accept loop of all TCP sources over edge-triggered sockets, with its thread pool (`AcceptModel.v`) | failing registrations, `poll` errors, address lookup |
| `source/avro.rs` | header and metadata codec, acknowledgements, and the handler of one connection with its polls, answers and shutdown (StreamModel.v, shared with the native source; there the wait for an acknowledgement is taken to end) | avro container validation (oracle) |
| `sink/kafka.rs`, `sink/elasticsearch.rs` | delivery, flush, retries | rdkafka and elastic clients (answer oracles) |
| `sink/wavefront.rs` | caches, padding (also against the four randomized tests of it, C148), formatting, flush | sockets (a connection takes a number of bytes), formatting of floats (oracle; that of integers is in `ShowModel.v`) |
| `sink/console.rs`, `sink/null.rs` | delivery, flush with its text (`ConsoleModel.v`); the null sink has only its interval | formatting of numbers and times (class `Show`) |
| `sink/prometheus.rs` | accumulators, aggregation, exposition text; the scrape handler, the lock it shares with the sink and its poisoning; a reader of the text format (`ScrapedSpec.v`); what successive scrapes of one series show (`RiseSpec.v`, `RiseProofs.v`) | gzip (any function), the delay counter |
| `http.rs` | the server's loop over poll and recv_timeout | tiny_http itself, a port that cannot be bound |
| `protocols/prometheus.rs` (generated) | nothing: only declared in `protocols/mod.rs`, used nowhere | all of it |
| `protocols/native.rs` (generated), `source/native.rs`, `sink/native.rs` | wire format, byte by byte, both directions; handler; flush loop with reconnects | the `protobuf` crate's buffered writer is reduced to "how many bytes have left it when `write_to_writer`'s caller is told all is well" (a parameter); UTF-8 validation (a parameter) |
| `source/file/*.rs` | `FileWatcher`, the loop of `FileServer`, the file system as seen between system calls; failing `read(2)` with the line buffer all files share (`FaultModel.v`); the reference file and the two experiments of the test module (`WatchSpec.v`) | failing `open(2)` and `stat(2)` other than not found, glob matching (an arbitrary list per round) |
| `sink/influxdb.rs`, `time.rs` delay | formatting through the caches, the flush loop, counters, valve | HTTP client (answers given), gzip, URL |
| `source/internal.rs` | counter table, sweeps interleaved with counting threads, the queue Q | mio poll (timeouts, events and errors are steps); relaxed atomics are one step each |
| the process as a whole: `bin/cernan.rs` main, `util.rs` send, `filter/mod.rs`, `sink/mod.rs`, `source/flush.rs` | `NetworkModel.v`: all threads of sources, filters, sinks and the timer over their queues as main wires them, any interleaving; fair infinite executions of it (`LiveSpec.v`), pulses on their way through filters (`PulseSpec.v`), the console at the end of it (`ShownSpec.v`), the InfluxDB, elasticsearch, wavefront and prometheus sinks there (`ArriveSpec.v`, `CollectSpec.v`), a native sink with a second process behind it (`RelaySpec.v`), totals of counts from datagrams (`StatsdExitProps.v`) through buffer, flushes and shutdown (`ConserveSpec.v`, `WholeProps.v`) and to InfluxDB (`InfluxExitProps.v`; from graphite connections, `GraphiteExitProps.v`); main itself beside them with the signal, the telling and joining of threads and threads that panic (`MainModel.v`) | sources are reduced to "any data at any time, then one Shutdown"; crashed or hanging stream handlers; queues overflowing to disk |
| `source/avro.rs`, `metric/ackbag.rs`, `util.rs` send and `sink/kafka.rs` together | `PublishModel.v`: handlers of connections, queue, sink with its broker and the ack bag, step by step; the naps of `wait_for` | one kafka sink behind the source, no filter between; connection ids unique; the answers a flush awaits are known when it starts; saturation of the ack count |
