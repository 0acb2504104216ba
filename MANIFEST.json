{
 "claims": [
  {
   "property": "C01",
   "status": "proved",
   "theorems": [
    "C01_buffer_refines_map",
    "C01_one_point_per_bin",
    "C01_bin_holds_in_order_merge"
   ],
   "note": "Hypothesis: no 64-bit hash collision among the series that occur."
  },
  {
   "property": "C02",
   "status": "proved",
   "theorems": [
    "C02_count_is_number_of_points",
    "C02_len"
   ],
   "note": ""
  },
  {
   "property": "C03",
   "status": "proved",
   "theorems": [
    "C03_reset_keeps_newest_persisted",
    "C03_reset_idempotent"
   ],
   "note": "Hypothesis: no hash collision among the series that occur."
  },
  {
   "property": "C04",
   "status": "proved",
   "theorems": [
    "C04_iteration_order"
   ],
   "note": "Hypothesis: no hash collision among the series that occur."
  },
  {
   "property": "C05",
   "status": "proved",
   "theorems": [
    "C05_add_frame"
   ],
   "note": "Hypothesis: no hash collision among the series that occur."
  },
  {
   "property": "C06",
   "status": "proved",
   "theorems": [
    "C06_merge_kind",
    "C06_merge_keeps_identity",
    "C06_merge_set_last",
    "C06_merge_sum_fold",
    "C06_merge_samples_count",
    "C06_merge_summary_sum",
    "C06_merge_into_sum"
   ],
   "note": ""
  },
  {
   "property": "C07",
   "status": "partial",
   "theorems": [
    "C07_merge_keeps_samples_refuted",
    "C07_histogram_into_summary_dropped",
    "C07_merge_keeps_samples_partial"
   ],
   "note": "False as stated: a histogram merged with a summary is dropped (refuted by witness); the partial theorem covers the other kind pairs."
  },
  {
   "property": "C08",
   "status": "partial",
   "theorems": [
    "C08_merge_persist_refuted",
    "C08_merge_persist_partial"
   ],
   "note": "False as stated: merging takes the right operand's persist flag (refuted by witness)."
  },
  {
   "property": "C09",
   "status": "proved",
   "theorems": [
    "C09_harden_succeeds_iff_valid",
    "C09_harden_outcome",
    "C09_thaw_harden",
    "C09_error_names_fault",
    "C09_bounds_sorted"
   ],
   "note": ""
  },
  {
   "property": "C10",
   "status": "proved",
   "theorems": [
    "C10_tag_iter_exact",
    "C10_tag_iter_keys_once",
    "C10_get_from_tags_agrees"
   ],
   "note": ""
  },
  {
   "property": "C11",
   "status": "proved",
   "theorems": [
    "C11_insert_tag",
    "C11_remove_tag",
    "C11_overlay_tags"
   ],
   "note": ""
  },
  {
   "property": "C12",
   "status": "partial",
   "theorems": [
    "C12_bin_width_refuted",
    "C12_bin_width_partial",
    "C12_bins_exact"
   ],
   "note": "False as stated at zero: truncating division makes the bin around zero twice as wide (refuted by witness); proved for the other bins."
  },
  {
   "property": "C13",
   "status": "partial",
   "theorems": [
    "C13_tag_order_refuted",
    "C13_tag_order_iteration_refuted",
    "C13_tag_order_partial",
    "C13_points_by_name_time_tags"
   ],
   "note": "False as stated: tag comparison follows hash iteration order and is not antisymmetric (refuted by witness); partial theorem for the cases where it is an order."
  },
  {
   "property": "C14",
   "status": "proved",
   "theorems": [
    "C14_fan_out"
   ],
   "note": ""
  },
  {
   "property": "C15",
   "status": "proved",
   "theorems": [
    "C15_delay_and_flush_boundary_never_fail",
    "C15_filter_output"
   ],
   "note": ""
  },
  {
   "property": "C16",
   "status": "partial",
   "theorems": [
    "C16_failing_event_refuted",
    "C16_programmable_partial",
    "C16_failing_event_partial"
   ],
   "note": "False in general: a filter that pushes output and then fails leaves that output for a later event. Proved for filters that push nothing when they fail."
  },
  {
   "property": "C17",
   "status": "proved",
   "theorems": [
    "C17_filter_stops_on_nth_shutdown"
   ],
   "note": ""
  },
  {
   "property": "C18",
   "status": "partial",
   "theorems": [
    "C18_no_early_stop_refuted",
    "C18_no_early_stop_partial",
    "C18_markers_forwarded"
   ],
   "note": "False in general: a filter with n upstreams forwards n shutdown markers, so a node below it can stop early. Proved when every upstream announces its end exactly once; the number of forwarded markers is proved for all filters."
  },
  {
   "property": "C19",
   "status": "partial",
   "theorems": [
    "C19_boundary_refuted",
    "C19_overflow_refuted",
    "C19_delay_partial",
    "C19_delay_exact_rule",
    "C19_under_run"
   ],
   "note": "False at exactly the tolerance and when the distance overflows 64 bits (witnesses). Proved elsewhere, with the exact rule of the code and its counters."
  },
  {
   "property": "C20",
   "status": "proved",
   "theorems": [
    "C20_conservation",
    "C20_shape",
    "C20_released_by_flush_after_tolerance"
   ],
   "note": ""
  },
  {
   "property": "C21",
   "status": "partial",
   "theorems": [
    "C21_raw_forwarded_refuted"
   ],
   "note": "False: raw events entering the flush boundary filter never come out, for every tolerance and continuation."
  },
  {
   "property": "C22",
   "status": "proved",
   "theorems": [
    "C22_json_encode",
    "C22_one_for_one"
   ],
   "note": "serde_json, chrono and the random order key are parameters."
  },
  {
   "property": "C23",
   "status": "proved",
   "theorems": [
    "C23_flush_indices",
    "C23_raw_and_shutdown_pass",
    "C23_failed_ticks_repeat",
    "C23_payload_refines"
   ],
   "note": "The Lua script is an arbitrary state machine."
  },
  {
   "property": "C24",
   "status": "proved",
   "theorems": [
    "C24_delivered_once_in_order",
    "C24_closed_valve_only_flushes",
    "C24_open_valve_delivers"
   ],
   "note": ""
  },
  {
   "property": "C25",
   "status": "proved",
   "theorems": [
    "C25_flush_once_per_index",
    "C25_flushes_strictly_increase"
   ],
   "note": ""
  },
  {
   "property": "C26",
   "status": "partial",
   "theorems": [
    "C26_sink_waits_for_all_refuted",
    "C26_sink_stops_at_first_marker_partial",
    "C26_no_stop_without_marker_partial"
   ],
   "note": "False: the first marker makes the sink stop whatever its number of upstreams. Proved: it stops at the first marker, having delivered everything queued before it, and never without a marker."
  },
  {
   "property": "C27",
   "status": "proved",
   "theorems": [
    "C27_statsd_grammar",
    "C27_unambiguous",
    "C27_lines_of_a_packet"
   ],
   "note": "Float and integer parsing are parameters; the clock does not move within a packet. cfg_ok: summary error below 1 and non-empty NaN-free mask bounds."
  },
  {
   "property": "C28",
   "status": "proved",
   "theorems": [
    "C28_gauge_and_counter",
    "C28_timer_and_histogram"
   ],
   "note": "Timers and histograms with a sample rate are scaled by 1/rate as well, as the code does."
  },
  {
   "property": "C29",
   "status": "proved",
   "theorems": [
    "C29_graphite_grammar"
   ],
   "note": "Splitting at Unicode white space (str::split_whitespace) is a parameter: the theorem is about the word list."
  },
  {
   "property": "C30",
   "status": "partial",
   "theorems": [
    "C30_statsd_refuted",
    "C30_graphite_refuted",
    "C30_statsd_partial",
    "C30_single_line_packets",
    "C30_graphite_partial",
    "C30_leftovers_conserved"
   ],
   "note": "False: points parsed before the error stay in the vector and are emitted with the next accepted packet (witnesses for both protocols). Proved when a rejected packet fails before its first point, in particular for one-line packets; in general nothing is lost or repeated."
  },
  {
   "property": "C31",
   "status": "partial",
   "theorems": [
    "C31_portions",
    "C31_exact",
    "C31_only_dry_moments",
    "C31_split_length_refuted",
    "C31_framing_partial",
    "C31_no_wait",
    "C31_cut_short"
   ],
   "note": "False when the socket runs dry inside a four-byte length field: the bytes read of it are lost (witness). Proved for every other way of arriving, and for streams cut short. Exactly what is read for every way of arriving, dry moments inside lengths included: C31_exact."
  },
  {
   "property": "C32",
   "status": "partial",
   "theorems": [
    "C32_over_long_rejected",
    "C32_every_stream",
    "C32_empty_payload_refuted",
    "C32_empty_payload_ends_stream",
    "C32_up_to_maximum_partial"
   ],
   "note": "Over-long prefixes are rejected and only those (every byte stream is covered). False for empty payloads, which end the stream (witness, and for every position)."
  },
  {
   "property": "C33",
   "status": "partial",
   "theorems": [
    "C33_round_trip",
    "C33_bad_body_rejected",
    "C33_truncated_refuted",
    "C33_truncated_partial"
   ],
   "note": "Round trip proved. The truncation clause is false: a short header or metadata panics instead of being rejected as invalid (witness); proved that it always panics and nothing is sent. Avro container validation is a parameter."
  },
  {
   "property": "C34",
   "status": "partial",
   "theorems": [
    "C34_stale_ack_refuted",
    "C34_two_forwards_refuted",
    "C34_own_resolution_partial",
    "C34_some_resolution_partial",
    "C34_early_ack_kept",
    "C34_entry_before_event",
    "C34_only_sync_acked",
    "C34_acked_once"
   ],
   "note": "False when asynchronous and synchronous payloads share a connection, or with two forwards: events carry only the connection id (witnesses). Proved for synchronous-only connections with one forward; in general some event of the connection was resolved since prepare. Early acks are kept, only synchronous payloads are acknowledged, each once."
  },
  {
   "property": "C35",
   "status": "proved",
   "theorems": [
    "C35_flush_resolves",
    "C35_resend_same_message",
    "C35_resent_once",
    "C35_which_errors",
    "C35_flush_finishes"
   ],
   "note": "rdkafka is an oracle giving one answer per attempt. Flushes that never end (endless retryable answers) give no result; proved to end when retryable answers stop. Sameness of a re-sent message assumes the client hands back what it was given."
  },
  {
   "property": "C36",
   "status": "partial",
   "theorems": [
    "C36_refuted",
    "C36_partial",
    "C36_never_at_delivery"
   ],
   "note": "False: a permanently rejected message is acknowledged (witness). Proved when every answer is a confirmation or a retryable error with the complete message."
  },
  {
   "property": "C37",
   "status": "proved",
   "theorems": [
    "C37_valve"
   ],
   "note": ""
  },
  {
   "property": "C38",
   "status": "partial",
   "theorems": [
    "C38_lines_partial",
    "C38_requests",
    "C38_no_empty_request",
    "C38_answers_handled",
    "C38_refuted"
   ],
   "note": "False for the limit 255, where the u8 attempt counter wraps in release builds and a line is retried for ever (witness for every number of refusals). Proved for every smaller limit, distinct ids (uuid v4) assumed. An answer naming an unknown id panics: such histories have no result; answers naming each buffered line at most once are always handled."
  },
  {
   "property": "C39",
   "status": "proved",
   "theorems": [
    "C39_padding_only_inserts",
    "C39_zeros_carry_the_series",
    "C39_padding_ends"
   ],
   "note": "For every span other than 0 (a zero span panics, shown by an example). That zeros carry the name and tags assumes the 64 bit hash tells the points apart."
  },
  {
   "property": "C40",
   "status": "partial",
   "theorems": [
    "C40_gaps_bracketed_partial",
    "C40_no_zeros_between_neighbours",
    "C40_unpadded_kinds",
    "C40_refuted"
   ],
   "note": "False after a point that is not newer than the last seen time of its series: no zero follows it (witness). Proved otherwise, with the converse that neighbours get no zeros and that unpadded kinds pass unchanged."
  },
  {
   "property": "C41",
   "status": "partial",
   "theorems": [
    "C41_gap_since_last_flush_partial",
    "C41_refuted",
    "C41_no_zeros_without_gap"
   ],
   "note": "False for a series with one point in the flush that is followed by another series (witness). Proved for the last series and for series with further points."
  },
  {
   "property": "C42",
   "status": "partial",
   "theorems": [
    "C42_native_refuted",
    "C42_native_dead_connection",
    "C42_native_flush_partial",
    "C42_native_flush_ends",
    "C42_wavefront_flush",
    "C42_wavefront_flush_ends",
    "C42_wavefront_reconnects",
    "C42_wavefront_valve"
   ],
   "note": "Wavefront: proved with its failing cases as noted in WavefrontProps. Native: false, flush returns with the tail of the frame still in the writer (for every buffer that holds back a byte), and a dead connection goes unnoticed while frames fit in it; proved what every attempt writes and when flush returns."
  },
  {
   "property": "C43",
   "status": "partial",
   "theorems": [
    "C43_floats_partial",
    "C43_times",
    "C43_counts",
    "C43_refuted"
   ],
   "note": "False for NaN, which always panics. Proved for all other floats, for times and counts; zero and minus zero share the text of the first one seen."
  },
  {
   "property": "C44",
   "status": "proved",
   "theorems": [
    "C44_greatest",
    "C44_window",
    "C44_totals_and_bounds",
    "C44_count",
    "C44_purge_counts",
    "C44_purge"
   ],
   "note": "The window theorem is for histories without purges and a capacity of at least 1; for histories with purges the bounds, the order and the running totals, and what a purge keeps and counts. The count of points is exact without a bound: it restarts at one after 2^64 - 2."
  },
  {
   "property": "C45",
   "status": "proved",
   "theorems": [
    "C45_accepts",
    "C45_content",
    "C45_count",
    "C45_kind_stable"
   ],
   "note": "All histories of insertions and purges that do not panic (a summary without samples panics)."
  },
  {
   "property": "C46",
   "status": "partial",
   "theorems": [
    "C46_refuted"
   ],
   "note": "False for every pair of counters that differ only in tags."
  },
  {
   "property": "C47",
   "status": "proved",
   "theorems": [
    "C47_cumulative"
   ],
   "note": "For every histogram of every exposition, in any order of the hash map. The last total equals the count unless the count is overridden, which only windows do."
  },
  {
   "property": "C48",
   "status": "partial",
   "theorems": [
    "C48_sanitized",
    "C48_refuted"
   ],
   "note": "The replaced text is characterised. False that distinct names stay distinct (witness)."
  },
  {
   "property": "C49",
   "status": "partial",
   "theorems": [
    "C49_blocks",
    "C49_content",
    "C49_all_reported",
    "C49_one_type_line_partial",
    "C49_refuted"
   ],
   "note": "One block per point, headed by its TYPE line, for every order of the hash map, with exactly the samples of its kind; every metric that holds something is reported. False that a metric name gets one TYPE line when names collide after replacement (witness); proved otherwise."
  },
  {
   "property": "C50",
   "status": "partial",
   "theorems": [
    "C50_native_pair_partial",
    "C50_sink_writes_batches",
    "C50_many_samples_lost",
    "C50_long_flush_lost",
    "C50_mebibyte",
    "C50_refuted",
    "C50_histogram_lost"
   ],
   "note": "False for summaries of 16 to 127 samples (and of 2048 to 16383): the declared size of the packed samples is wrong and the source drops the whole payload (witness and general theorem); also for flushes above 1 MiB. Proved for all other batches, times within 2^43 seconds, strings that the source accepts as UTF-8 (NaN payload bits are not represented)."
  },
  {
   "property": "C51",
   "status": "partial",
   "theorems": [
    "C51_one_sender_per_forward",
    "C51_neighbours_counted",
    "C51_sinks_expect_upstreams",
    "C51_filters_expect_upstreams_refuted",
    "C51_filters_expect_upstreams_partial",
    "C51_timer",
    "C51_same_path_refuted"
   ],
   "note": "Senders, sinks and the timer are proved. False for filters that forward to each other: a filter does not count an upstream it forwards to (witness; the exact count is proved). Ids are assumed distinct; two file sources of one path are not (witness)."
  },
  {
   "property": "C52",
   "status": "partial",
   "theorems": [
    "C52_documented_delay_refuted",
    "C52_delay_partial"
   ],
   "note": "The documented 2**x fails at one attempt (1 ms). Proved: 0 at 0, monotone, 2**x for 2..8, 512 from 9 on."
  },
  {
   "property": "C53",
   "status": "partial",
   "theorems": [
    "C53_pulses_partial",
    "C53_wraps_refuted"
   ],
   "note": "False after 2^64 - 1 pulses, where the index wraps (proved). Proved for every shorter run, with C14 verdicts for full queues."
  },
  {
   "property": "C54",
   "status": "partial",
   "theorems": [
    "C54_joined_once",
    "C54_shutdown_joins_all_partial",
    "C54_crashed_kept",
    "C54_shutdown_exactly",
    "C54_refuted"
   ],
   "note": "False: a panicked thread stays in the pool and makes shutdown panic before the others are joined (witness; C74). join_ready is proved for every history; shutdown gets through exactly when no thread panicked or will, and then joins all."
  },
  {
   "property": "C55",
   "status": "partial",
   "theorems": [
    "C55_watcher_lines",
    "C55_watcher_complete",
    "C55_start",
    "C55_server",
    "C55_from_start",
    "C55_rotated_partial",
    "C55_truncated_partial",
    "C55_rotated_refuted",
    "C55_truncated_refuted"
   ],
   "note": "Proved for files that grow by complete lines, for the watcher and the whole server; blank lines and invalid UTF-8 are skipped. A rotated file is read from its start when the new file is there at the next call; false when the path is missing for some rounds (witness). A truncated file is read from its start when it is seen shorter; false when it has grown back between polls (witness)."
  },
  {
   "property": "C56",
   "status": "partial",
   "theorems": [
    "C56_partial",
    "C56_refuted"
   ],
   "note": "False: the last character of the part seen is dropped (witness; proved for every line and split). The second part and later lines are intact."
  },
  {
   "property": "C57",
   "status": "partial",
   "theorems": [
    "C57_conserved_partial",
    "C57_swept",
    "C57_no_panic",
    "C57_no_forwards",
    "C57_refuted",
    "C57_stored_names"
   ],
   "note": "Proved for the 55 counters the code only adds to, below 2^64 increments. False for the four counters that are stored to, of which one, the purged points of prometheus, is reported as a sum (witness). Reported numbers are f64, exact up to 2^53."
  },
  {
   "property": "C58",
   "status": "partial",
   "theorems": [
    "C58_posted_until_accepted",
    "C58_ends_partial",
    "C58_refuted",
    "C58_every_point_once",
    "C58_valve"
   ],
   "note": "Proved for points whose numbers are not NaN. A NaN panics the sink at its next flush (proved for every state)."
  },
  {
   "property": "C59",
   "status": "partial",
   "theorems": [
    "C59_tokens",
    "C59_system_token_refuted",
    "C59_system_token_partial"
   ],
   "note": "Distinctness and lookup proved for any number. The reserved token is hit by the 2049th listener, and by the stream events with 2048 listeners (witnesses); proved for fewer."
  },
  {
   "property": "C60",
   "status": "proved",
   "theorems": [
    "C60_native_source",
    "C60_refused_sends_nothing",
    "C60_bad_field_refuses_all",
    "C60_bounds_ignored",
    "C60_bad_text_refuses_all"
   ],
   "note": "Every payload made of fields in wire order, unknown fields included; refused payloads send nothing. Histogram bounds sent by a client are ignored (theorem)."
  },
  {
   "property": "C61",
   "status": "partial",
   "theorems": [
    "C61_configured_tags_win_refuted",
    "C61_configured_tags_added_partial"
   ],
   "note": "False: the event own tag wins (witness). Proved: the configured value appears when the event does not carry the key."
  },
  {
   "property": "C62",
   "status": "partial",
   "theorems": [
    "C62_refuted",
    "C62_partial"
   ],
   "note": "False: a metadata key that is not UTF-8 panics (witness); proved that this is the only case."
  },
  {
   "property": "C63",
   "status": "partial",
   "theorems": [
    "C63_document",
    "C63_refuted",
    "C63_partial"
   ],
   "note": "The whole document is characterised. False for fields or tags named uuid, path, payload or timestamp (witness); proved otherwise."
  },
  {
   "property": "C64",
   "status": "partial",
   "theorems": [
    "C64_zero_points_partial",
    "C64_refuted"
   ],
   "note": "False for summaries (count 1) and histograms (default bounds, one sample), for every such point. Proved for set and sum."
  },
  {
   "property": "C65",
   "status": "proved",
   "theorems": [
    "C65_flush_writes_every_point"
   ],
   "note": "Number formatting is a parameter that agrees on numerically equal floats. A NaN panics, such histories have no result."
  },
  {
   "property": "C66",
   "status": "partial",
   "theorems": [
    "C66_prometheus_age_threshold_partial",
    "C66_prometheus_no_threshold",
    "C66_age_threshold_partial",
    "C66_no_threshold",
    "C66_refuted"
   ],
   "note": "False when the difference is exactly -2^63 (witness). Proved when the difference and the threshold fit in 64 signed bits."
  },
  {
   "property": "C67",
   "status": "partial",
   "theorems": [
    "C67_last_seen_partial",
    "C67_refuted"
   ],
   "note": "False: a later flush with a late point lowers the record (witness). Proved: the record is the time of the last point of the series in the last flush that had one."
  },
  {
   "property": "C68",
   "status": "partial",
   "theorems": [
    "C68_refuted",
    "C68_count_partial"
   ],
   "note": "False: one sample per point is counted and its largest value summed (witness). Proved for points with one sample."
  },
  {
   "property": "C69",
   "status": "partial",
   "theorems": [
    "C69_tags_readable_partial",
    "C69_refuted"
   ],
   "note": "False for values with a quotation mark, which is not escaped (witness). Proved for keys without equals sign and values without quotation mark."
  },
  {
   "property": "C70",
   "status": "partial",
   "theorems": [
    "C70_refuted"
   ],
   "note": "False for every bucket of every exposition."
  },
  {
   "property": "C71",
   "status": "partial",
   "theorems": [
    "C71_idle_flush_refuted"
   ],
   "note": "False for every history: an idle flush writes a zero length, the source closes, later frames are lost."
  },
  {
   "property": "C72",
   "status": "partial",
   "theorems": [
    "C72_timestamps",
    "C72_refuted"
   ],
   "note": "False for times whose millisecond count overflows (witness). Proved up to 2^43 seconds."
  },
  {
   "property": "C73",
   "status": "partial",
   "theorems": [
    "C73_fulfillable_starts_refuted",
    "C73_starts",
    "C73_failure_status_refuted",
    "C73_failure_status_partial"
   ],
   "note": "Exactly which configurations start is proved. False that all fulfillable ones do (an unconnected filter panics) and that refusals have a failure status (native sources are not validated, exit 0); both with witnesses."
  },
  {
   "property": "C74",
   "status": "partial",
   "theorems": [
    "C74_crashed_handler_refuted"
   ],
   "note": "False for every history in which a handler panicked."
  },
  {
   "property": "C75",
   "status": "proved",
   "theorems": [
    "C75_key",
    "C75_same_key"
   ],
   "note": ""
  },
  {
   "property": "C76",
   "status": "proved",
   "theorems": [
    "C76_poll_bounded",
    "C76_no_starvation",
    "C76_wait",
    "C76_idle"
   ],
   "note": ""
  },
  {
   "property": "C77",
   "status": "partial",
   "theorems": [
    "C77_pauses_partial",
    "C77_refusals_partial",
    "C77_refuted",
    "C77_delay_partial",
    "C77_delay_refuted"
   ],
   "note": "The pauses are proved to follow the refusals (4xx, 5xx) held, up to 512 ms, and a success takes one back. False for an unreachable server and other statuses, which are retried without any pause (proved for every number of retries), and for the documented 2 ms after one refusal, which are 1 ms."
  },
  {
   "property": "C78",
   "status": "partial",
   "theorems": [
    "C78_partial",
    "C78_refuted"
   ],
   "note": "Proved from 0 to 9223372036 s. Later times are all written as 9223372036854775807, earlier ones wrap around (proved)."
  },
  {
   "property": "C79",
   "status": "partial",
   "theorems": [
    "C79_partial",
    "C79_refuted"
   ],
   "note": "Proved for names, keys and values without comma, equals, space and newline. Nothing is escaped: false otherwise (witnesses)."
  },
  {
   "property": "C80",
   "status": "partial",
   "theorems": [
    "C80_partial",
    "C80_refuted"
   ],
   "note": "Successes and failures are proved. The attempts counter adds the refusals held before each POST instead of one, so it stays 0 while all goes well (proved)."
  },
  {
   "property": "C81",
   "status": "partial",
   "theorems": [
    "C81_once",
    "C81_refuted",
    "C81_names"
   ],
   "note": "Once is proved. False for the order: Q is a stack (witness for any two reports)."
  },
  {
   "property": "C82",
   "status": "partial",
   "theorems": [
    "C82_stops",
    "C82_refuted"
   ],
   "note": "The one Shutdown, last, is proved. Counts since the last sweep are lost (proved)."
  },
  {
   "property": "C83",
   "status": "proved",
   "theorems": [
    "C83_inserts",
    "C83_overridden"
   ],
   "note": ""
  },
  {
   "property": "C84",
   "status": "proved",
   "theorems": [
    "C84_queues",
    "C84_sources",
    "C84_filters",
    "C84_timer",
    "C84_sinks",
    "C84_no_drops"
   ],
   "note": ""
  },
  {
   "property": "C85",
   "status": "partial",
   "theorems": [
    "C85_fair_partial",
    "C85_refuted",
    "C85_never",
    "C85_at_rest_partial",
    "C85_can_end_partial",
    "C85_over_for_good"
   ],
   "note": "False for a filter or sink nobody forwards to: it never stops and main waits for it (proved). Proved for nodes reached from sources, all of whose upstreams are too (filters), as long as no full queue drops a marker: they are over whenever nothing but the timer can move, from every reachable state they can be brought to that, and in every fair infinite execution whose sources stop they are over from some time on. Missing: nodes that are not fed that way."
  },
  {
   "property": "C86",
   "status": "partial",
   "theorems": [
    "C86_fair_partial",
    "C86_refuted",
    "C86_orderly_partial",
    "C86_quiet_filters",
    "C86_delivered_partial"
   ],
   "note": "False: a sink stops at the first marker it sees, so events of its other upstreams are left (witness with two sources, no queue full). Proved where nothing has two upstreams and filters make no markers of their own (proved of the delay, flush boundary and programmable filters); there, in every fair infinite execution, every sink behind a source ends having delivered all data the source sent."
  },
  {
   "property": "C87",
   "status": "proved",
   "theorems": [
    "C87_any_client",
    "C87_packing"
   ],
   "note": ""
  },
  {
   "property": "C88",
   "status": "partial",
   "theorems": [
    "C88_refuted_cut",
    "C88_refuted_last_line",
    "C88_lines_partial",
    "C88_close_partial",
    "C88_ascii_partial",
    "C88_heard_once",
    "C88_exact"
   ],
   "note": "False when a cut falls inside a character (the bytes of the arrival are thrown away) and for an unterminated last line whose close comes in a later arrival. Proved for every cut between characters, in particular for all ASCII text, and for both kinds of close. Exactly which lines are heard for everything that may arrive, pieces that are not UTF-8 and closes included: C88_exact."
  },
  {
   "property": "C89",
   "status": "partial",
   "theorems": [
    "C89_refuted_glued",
    "C89_refuted_stalled",
    "C89_isolated_partial"
   ],
   "note": "False: the part of the bad line that came earlier becomes the head of the next line (witness), and lines behind two bad lines of one arrival are never read if only the close follows (proved for all). Proved when arrivals are whole lines and the bad line is the last of its arrival."
  },
  {
   "property": "C90",
   "status": "partial",
   "theorems": [
    "C90_refuted",
    "C90_system"
   ],
   "note": "False: the handler stays in poll after the close, for every history without shutdown (proved). It ends on the shutdown and never panics (proved)."
  },
  {
   "property": "C91",
   "status": "partial",
   "theorems": [
    "C91_refuted",
    "C91_count_partial"
   ],
   "note": "False: it counts accepted lines (witness). Proved while lines hold at most one point and no arrival cuts a character."
  },
  {
   "property": "C92",
   "status": "partial",
   "theorems": [
    "C92_refuted",
    "C92_metric_partial",
    "C92_log_partial"
   ],
   "note": "Indices that name an element are proved to address it, in all functions. False for the others: 0 and what is out of range panic (proved for every payload)."
  },
  {
   "property": "C93",
   "status": "partial",
   "theorems": [
    "C93_refuted",
    "C93_q_ignored",
    "C93_refuted_quantile",
    "C93_query_partial"
   ],
   "note": "False: the third argument is ignored, the second is both index and quantile, and a quantile below 1 in its place panics (proved). Proved: the quantile i of the i-th point."
  },
  {
   "property": "C94",
   "status": "proved",
   "theorems": [
    "C94_asking_changes_nothing",
    "C94_measures_stay"
   ],
   "note": ""
  },
  {
   "property": "C95",
   "status": "proved",
   "theorems": [
    "C95_metric_tags",
    "C95_log_tags",
    "C95_missing_argument"
   ],
   "note": ""
  },
  {
   "property": "C96",
   "status": "proved",
   "theorems": [
    "C96_pushes",
    "C96_nameless"
   ],
   "note": ""
  },
  {
   "property": "C97",
   "status": "partial",
   "theorems": [
    "C97_refuted",
    "C97_order_partial"
   ],
   "note": "False: lines leave before points (witness). Proved for lines and points each."
  },
  {
   "property": "C98",
   "status": "partial",
   "theorems": [
    "C98_refuted",
    "C98_stack_counts_failures"
   ],
   "note": "False: each failure leaves one value on the stack, so no bound holds (witness); the number is proved to be exactly that of the failures."
  },
  {
   "property": "C99",
   "status": "partial",
   "theorems": [
    "C99_refuted",
    "C99_ids_distinct_partial"
   ],
   "note": "False: a file source is named after its path, so two sections with one path share an id (witness). Proved for all files without such a pair, where the Display of texts is injective."
  },
  {
   "property": "C100",
   "status": "partial",
   "theorems": [
    "C100_refuted_prometheus",
    "C100_refuted_fraction",
    "C100_refuted_negative",
    "C100_interval_partial",
    "C100_float_partial"
   ],
   "note": "False for prometheus (reads no interval, 10 pulses always), for some fractions (0.29 s are 28 pulses) and for negative numbers (wrap). Proved for whole numbers of seconds written as integers or floats, for all other sinks."
  },
  {
   "property": "C101",
   "status": "partial",
   "theorems": [
    "C101_refuted",
    "C101_port_partial"
   ],
   "note": "False: numbers are cut (65616 is port 80, 256 attempts are 0, -1 is 2^64-1). Proved: a port that fits is used as it stands, for all components."
  },
  {
   "property": "C102",
   "status": "proved",
   "theorems": [
    "C102_section_frame"
   ],
   "note": ""
  },
  {
   "property": "C103",
   "status": "proved",
   "theorems": [
    "C103_declared"
   ],
   "note": ""
  },
  {
   "property": "C104",
   "status": "partial",
   "theorems": [
    "C104_refuted",
    "C104_unknown_keys_ignored"
   ],
   "note": "False: sections without tolerance, script or path are left out, and unknown keys change nothing (proved for all keys at the top, among the sinks and in sink sections)."
  },
  {
   "property": "C105",
   "status": "proved",
   "theorems": [
    "C105_global_tags"
   ],
   "note": ""
  },
  {
   "property": "C106",
   "status": "proved",
   "theorems": [
    "C106_last_mapping_wins",
    "C106_no_mapping"
   ],
   "note": ""
  },
  {
   "property": "C107",
   "status": "proved",
   "theorems": [
    "C107_forwards"
   ],
   "note": ""
  },
  {
   "property": "C108",
   "status": "proved",
   "theorems": [
    "C108_lines_printed_once"
   ],
   "note": ""
  },
  {
   "property": "C109",
   "status": "proved",
   "theorems": [
    "C109_report"
   ],
   "note": "Hypotheses: positive bin width, no hash collision among the series that occur."
  },
  {
   "property": "C110",
   "status": "partial",
   "theorems": [
    "C110_refuted"
   ],
   "note": "False: no tags of points and no times of summaries are shown (two histories with one output)."
  },
  {
   "property": "C111",
   "status": "partial",
   "theorems": [
    "C111_refuted"
   ],
   "note": "False: the value of the line is printed, proved for every line that has the key."
  },
  {
   "property": "C112",
   "status": "partial",
   "theorems": [
    "C112_refuted",
    "C112_survives_partial"
   ],
   "note": "False: a time chrono cannot represent, or a bin width of 0 (witnesses). Proved for all other histories."
  },
  {
   "property": "C113",
   "status": "partial",
   "theorems": [
    "C113_zeroed_neutral_refuted",
    "C113_zeroed_neutral_partial",
    "C113_zeroed"
   ],
   "note": "False of sets, which are replaced (witness). Proved for sums and for the number of samples of summaries and histograms."
  },
  {
   "property": "C114",
   "status": "partial",
   "theorems": [
    "C114_in_order",
    "C114_one_handler_each",
    "C114_none_left_waiting_partial",
    "C114_gets_idle",
    "C114_listener_lost",
    "C114_refuted"
   ],
   "note": "False: one error of accept that is not retried (too many open files) deregisters the listener for good, and the connections made from then on get no handler (proved for all continuations, with a witness). Proved: order, one handler each, and that none is left waiting as long as no accept failed."
  },
  {
   "property": "C115",
   "status": "proved",
   "theorems": [
    "C115_finished_are_joined"
   ],
   "note": ""
  },
  {
   "property": "C116",
   "status": "partial",
   "theorems": [
    "C116_announced_last",
    "C116_only_when_told",
    "C116_stops_partial",
    "C116_refuted"
   ],
   "note": "False when a handler panicked: joining it panics the source, which then announces nothing (witness). Proved without panics; that Shutdown is the last thing sent and only after the signal holds always."
  },
  {
   "property": "C117",
   "status": "partial",
   "theorems": [
    "C117_in_order",
    "C117_sends_what_it_parses",
    "C117_sends_the_points",
    "C117_none_left_waiting_partial",
    "C117_gets_idle",
    "C117_next_arrival_recovers",
    "C117_refuted"
   ],
   "note": "False: a receive that fails ends the handler, and what is queued then waits until the next datagram arrives (witness; that the next arrival recovers all of it is proved for all states). Proved: order, what is sent, and that nothing is left as long as no receive failed."
  },
  {
   "property": "C118",
   "status": "partial",
   "theorems": [
    "C118_whole_partial",
    "C118_refuted"
   ],
   "note": "False: of more than 16250 bytes the rest is thrown away, and what is left may parse (witness: a counter loses its sampling rate). Proved up to 16250 bytes."
  },
  {
   "property": "C119",
   "status": "proved",
   "theorems": [
    "C119_shutdown"
   ],
   "note": ""
  },
  {
   "property": "C120",
   "status": "proved",
   "theorems": [
    "C120_every_call"
   ],
   "note": ""
  },
  {
   "property": "C121",
   "status": "proved",
   "theorems": [
    "C121_snapshot",
    "C121_points_kept",
    "C121_age",
    "C121_sink_waits",
    "C121_counters"
   ],
   "note": ""
  },
  {
   "property": "C122",
   "status": "partial",
   "theorems": [
    "C122_in_order",
    "C122_never_blocks",
    "C122_answered_partial",
    "C122_refuted"
   ],
   "note": "False: a scrape that finds the sink in the middle of an update gets no response (tiny_http answers 500), and so does one when there is nothing to report and gzip is off (witnesses). Proved: those are the only cases, as long as nothing panics (C124)."
  },
  {
   "property": "C123",
   "status": "proved",
   "theorems": [
    "C123_stops",
    "C123_joined"
   ],
   "note": ""
  },
  {
   "property": "C124",
   "status": "partial",
   "theorems": [
    "C124_no_panic_partial",
    "C124_points_are_sampled",
    "C124_after_panic",
    "C124_refuted"
   ],
   "note": "False with capacity_in_seconds 0: the second summary of one second fails an assertion with the lock held; from then on nothing is aggregated and no scrape is answered (witness; the consequence proved for all continuations). Proved for a window of at least one second, if sketches with samples answer queries and poll and recv_timeout do not fail; that points have samples is proved of the builder."
  },
  {
   "property": "C125",
   "status": "proved",
   "theorems": [
    "C125_prefix",
    "C125_completes",
    "C125_peer_not_reading"
   ],
   "note": ""
  },
  {
   "property": "C126",
   "status": "proved",
   "theorems": [
    "C126_answers",
    "C126_all_answered",
    "C126_not_waiting"
   ],
   "note": ""
  },
  {
   "property": "C127",
   "status": "proved",
   "theorems": [
    "C127_refused_ends",
    "C127_bad_body",
    "C127_native"
   ],
   "note": ""
  },
  {
   "property": "C128",
   "status": "partial",
   "theorems": [
    "C128_refuted",
    "C128_signal_ends_partial",
    "C128_nothing_more_partial",
    "C128_ends_if_peer_reads_partial"
   ],
   "note": "False: a handler whose peer does not read its answer goes round in write_all and never polls again (witness, for all later polls). Proved: the poll that reports the signal is the last one that counts, it reads nothing more if the signal is reported first, and it ends if the peer reads."
  },
  {
   "property": "C129",
   "status": "proved",
   "theorems": [
    "C129_sends_end",
    "C129_sent",
    "C129_taken",
    "C129_delivered",
    "C129_end_to_end"
   ],
   "note": ""
  },
  {
   "property": "C130",
   "status": "partial",
   "theorems": [
    "C130_flushed",
    "C130_flushed_through_filters",
    "C130_not_ahead",
    "C130_filters",
    "C130_refuted"
   ],
   "note": "False behind a programmable filter whose tick fails: the failed call leaves the pulse in the buffer, and a script without tick never flushes the sink behind it (witness, for all pulses below 2^64). Proved behind filters that hand pulses on; shown of the delay and flush boundary filters and of programmable filters whose tick never fails, and for sinks with sources only upstream without that condition."
  },
  {
   "property": "C131",
   "status": "partial",
   "theorems": [
    "C131_gently",
    "C131_within_silences",
    "C131_within_panics",
    "C131_however_cut",
    "C131_refuted"
   ],
   "note": "False of a read that fails within a line: the part read stays in the buffer all files share, no line of any file is sent from then on, and the thread panics at the next text (proved for all inputs, with a witness). Proved for failures at line starts."
  },
  {
   "property": "C132",
   "status": "partial",
   "theorems": [
    "C132_exit",
    "C132_exit_delivered_partial",
    "C132_in_turn",
    "C132_panic_why",
    "C132_returns_partial",
    "C132_never",
    "C132_refuted"
   ],
   "note": "False: a thread that panicked makes main panic over it before the other sources are told (witness), and a filter or sink nobody forwards to keeps main from returning (proved). Proved without those; delivery for nodes with a single upstream and queues never full."
  },
  {
   "property": "C133",
   "status": "proved",
   "theorems": [
    "C133_at_stop",
    "C133_live",
    "C133_end_to_end",
    "C133_exit"
   ],
   "note": ""
  },
  {
   "property": "C134",
   "status": "proved",
   "theorems": [
    "C134_source_names",
    "C134_texts",
    "C134_switches",
    "C134_numbers",
    "C134_open",
    "C134_padding",
    "C134_percentiles",
    "C134_statsd_error",
    "C134_script",
    "C134_rdkafka",
    "C134_forwards",
    "C134_files",
    "C134_globals"
   ],
   "note": ""
  },
  {
   "property": "C135",
   "status": "proved",
   "theorems": [
    "C135_answered_is_settled",
    "C135_answered_is_confirmed",
    "C135_mixed_is_answered_early"
   ],
   "note": ""
  },
  {
   "property": "C136",
   "status": "partial",
   "theorems": [
    "C136_can_still_be_answered_partial",
    "C136_dropped_is_never_answered",
    "C136_refuted"
   ],
   "note": "False: an event dropped because the queue was full is never resolved, and on a connection that always asks nothing that happens later answers the client (proved for all continuations, with a witness). Proved when the event reached the queue."
  },
  {
   "property": "C137",
   "status": "proved",
   "theorems": [
    "C137_sleeps",
    "C137_waits",
    "C137_never_long"
   ],
   "note": ""
  },
  {
   "property": "C138",
   "status": "proved",
   "theorems": [
    "C138_at_stop",
    "C138_end_to_end",
    "C138_exit"
   ],
   "note": ""
  },
  {
   "property": "C139",
   "status": "proved",
   "theorems": [
    "C139_posted",
    "C139_end_to_end",
    "C139_exit"
   ],
   "note": ""
  },
  {
   "property": "C140",
   "status": "proved",
   "theorems": [
    "C140_offered",
    "C140_left",
    "C140_end_to_end",
    "C140_exit"
   ],
   "note": ""
  },
  {
   "property": "C141",
   "status": "proved",
   "theorems": [
    "C141_written",
    "C141_end_to_end",
    "C141_exit"
   ],
   "note": ""
  },
  {
   "property": "C142",
   "status": "partial",
   "theorems": [
    "C142_forwarded_partial",
    "C142_rounds",
    "C142_idle_flush",
    "C142_refuted",
    "C142_exit_partial",
    "C142_end_to_end_partial"
   ],
   "note": "False: a flush that finds the buffer empty writes a zero length, at which the source closes the connection, and nothing sent on it later is emitted (C142_idle_flush for all runs, C142_refuted with a witness); points with 16 to 127 samples and histograms do not arrive either (C50). Proved when every flush has something to send that the format can carry, for the calls of any run of the first process."
  },
  {
   "property": "C143",
   "status": "proved",
   "theorems": [
    "C143_exact",
    "C143_bounds",
    "C143_outside_generator"
   ],
   "note": ""
  },
  {
   "property": "C144",
   "status": "partial",
   "theorems": [
    "C144_cells",
    "C144_survivors",
    "C144_all_or_nothing",
    "C144_rounds",
    "C144_running",
    "C144_count_by_name_refuted"
   ],
   "note": "Proved for all points: cells and count (C144_cells), what resets leave (C144_survivors, C144_all_or_nothing), names of every round (C144_rounds), running totals (C144_running). Refuted: the count by name and time that the randomized tests compute (C144_count_by_name_refuted): one name with two tag sets."
  },
  {
   "property": "C145",
   "status": "partial",
   "theorems": [
    "C145_scraped_partial",
    "C145_answer_partial",
    "C145_refuted"
   ],
   "note": "Proved for points whose names and tags the text format can hold (C145_scraped_partial; of the HTTP answer, C145_answer_partial). Refuted without that: six points, each of which makes the reader reject the whole text beside a good one (C145_refuted). The reader (ScrapedSpec.v) demands what the format describes, but not that the buckets of a histogram be named _bucket: that is C70."
  },
  {
   "property": "C146",
   "status": "partial",
   "theorems": [
    "C146_panics",
    "C146_order_free",
    "C146_new_partial",
    "C146_thawed_partial",
    "C146_refuted_count",
    "C146_refuted_kind"
   ],
   "note": "Proved of points that are new (C146_new_partial) and thawed (C146_thawed_partial), and that order does not matter (C146_order_free). Refuted: a count told to a sum is lost (C146_refuted_count), and a kind told to a thawed point without a value is ignored (C146_refuted_kind)."
  },
  {
   "property": "C147",
   "status": "proved",
   "theorems": [
    "C147_texts",
    "C147_one_reading",
    "C147_graphite"
   ],
   "note": ""
  },
  {
   "property": "C148",
   "status": "partial",
   "theorems": [
    "C148_identity",
    "C148_no_gaps",
    "C148_no_gaps_refuted",
    "C148_no_zero_runs",
    "C148_non_zero"
   ],
   "note": "Proved for every list (C148_identity, C148_no_gaps, C148_no_zero_runs, C148_non_zero), the gaps for times within 2^62 of zero. Refuted without that (C148_no_gaps_refuted): at the two ends of the range of times the difference overflows and no zero is inserted."
  },
  {
   "property": "C149",
   "status": "partial",
   "theorems": [
    "C149_exposed",
    "C149_read_partial",
    "C149_counted",
    "C149_end_to_end",
    "C149_refuted"
   ],
   "note": "Proved of the sink (C149_exposed, C149_counted) and from end to end (C149_end_to_end), of points within the age threshold; read back by the scraper for names and tags that fit the text format (C149_read_partial, see C145). Refuted for a point of another kind than the first of its name (C149_refuted)."
  },
  {
   "property": "C150",
   "status": "partial",
   "theorems": [
    "C150_follows",
    "C150_second",
    "C150_rises_partial",
    "C150_refuted_first",
    "C150_refuted_set_back"
   ],
   "note": "Proved for every interleaving: C150_follows, C150_second; that the clock never goes back only when it is read before the updater first asks and the wall clock is not set back (C150_rises_partial). Refuted without either (C150_refuted_first: the lazily filled static overwritten with an older second; C150_refuted_set_back)."
  },
  {
   "property": "C151",
   "status": "proved",
   "theorems": [
    "C151_integers",
    "C151_decimals",
    "C151_only",
    "C151_named",
    "C151_names",
    "C151_whole",
    "C151_words",
    "C151_graphite",
    "C151_statsd"
   ],
   "note": "Proved of a model of std's parsers and split_whitespace after their documentation (NumberModel.v); correct rounding is proved (RoundProofs.v), not assumed. The names accepted differ between versions of std and are a parameter."
  },
  {
   "property": "C152",
   "status": "partial",
   "theorems": [
    "C152_exact_partial",
    "C152_refuted",
    "C152_decimals_partial"
   ],
   "note": "False as stated (C152_refuted): 'a:NaN|g', and 'a:0|c|@0', make a point at which the next flush panics, whatever the sink held and whatever follows. Exactly which lines of counters, gauges and histograms with configured bounds do: C152_exact_partial; decimals without sampling never do (C152_decimals_partial). Lines kept as summaries are not covered: what the quantiles crate answers of a sample that is not a number is not modelled."
  },
  {
   "property": "C153",
   "status": "proved",
   "theorems": [
    "C153_merged",
    "C153_samples",
    "C153_counted",
    "C153_internal",
    "C153_stalls"
   ],
   "note": "Proved with the floats of the standard library, rounding included (ArithProofs.v: sums are the nearest floats to the sums)."
  },
  {
   "property": "C154",
   "status": "proved",
   "theorems": [
    "C154_statsd_wavefront",
    "C154_graphite_wavefront",
    "C154_statsd_prometheus",
    "C154_graphite_prometheus",
    "C154_file_console",
    "C154_statsd_sends",
    "C154_graphite_sends",
    "C154_statsd_influx",
    "C154_graphite_influx",
    "C154_file_elastic"
   ],
   "note": "A composition of C151, C117, C88, C55 with C139 and C140. That a source thread of the process hands on what the model of that source sends is a hypothesis (emitted ... = ud_sent ...), as is that no queue is ever full (all_kept)."
  },
  {
   "property": "C155",
   "status": "proved",
   "theorems": [
    "C155_sampled"
   ],
   "note": "The four roundings are those proved in RoundProofs.v, ArithProofs.v and SampleProofs.v for the floats of the standard library; numbers are read as C151 says."
  },
  {
   "property": "C156",
   "status": "partial",
   "theorems": [
    "C156_exact",
    "C156_inexact",
    "C156_whole_partial",
    "C156_refuted"
   ],
   "note": "False as stated (C156_refuted): 'a:1|c|@0.00001' counts 99999.99999999999. Exactly which n are exact is proved: C156_exact for the n that pass the check exact_at on integers, C156_inexact for all others; C156_whole_partial lists rates in use."
  },
  {
   "property": "C157",
   "status": "proved",
   "theorems": [
    "C157_grows",
    "C157_rises",
    "C157_histograms"
   ],
   "note": "Counters given negative amounts do go down, as they should; gauges and histograms are covered by C157_grows only."
  },
  {
   "property": "C158",
   "status": "proved",
   "theorems": [
    "C158_exact"
   ],
   "note": "A composition of C149_read_partial with C153_merged."
  },
  {
   "property": "C159",
   "status": "proved",
   "theorems": [
    "C159_conserved",
    "C159_written",
    "C159_statsd"
   ],
   "note": ""
  },
  {
   "property": "C160",
   "status": "proved",
   "theorems": [
    "C160_at_stop",
    "C160_exit"
   ],
   "note": ""
  },
  {
   "property": "C161",
   "status": "proved",
   "theorems": [
    "C161_statsd_exit"
   ],
   "note": ""
  },
  {
   "property": "C162",
   "status": "proved",
   "theorems": [
    "C162_levels",
    "C162_more",
    "C162_all",
    "C162_read"
   ],
   "note": "The counting of -v by clap and the writing to stdout are not modelled; the time is any text without a closing bracket."
  },
  {
   "property": "C163",
   "status": "proved",
   "theorems": [
    "C163_at_stop",
    "C163_exit",
    "C163_threads",
    "C163_statsd"
   ],
   "note": ""
  },
  {
   "property": "C164",
   "status": "proved",
   "theorems": [
    "C164_integers",
    "C164_one_text",
    "C164_token",
    "C164_scraped"
   ],
   "note": "How floats are written is not modelled: C164_scraped asks that whole ones be written as integers, as std's Display does."
  },
  {
   "property": "C165",
   "status": "proved",
   "theorems": [
    "C165_connection",
    "C165_exit"
   ],
   "note": "A composition of C88, C151 and C163. That the threads of the source hand on what the model of a connection sends is a hypothesis, as is that no queue was full (no_drops). Readable lines of more than three words are left out."
  }
 ]
}