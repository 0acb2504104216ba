(** * Self-telemetry: src/source/internal.rs.  The static counters, the queue and the reporting thread, interleaved with
    the threads that count.  Relaxed atomics: every access to one counter is one step, counters are independent. *)
From Verif Require Import Base TelemetryModel.
Open Scope string_scope. Open Scope list_scope. Open Scope nat_scope.

(** the counters in the order of a sweep with the kind they are reported as, internal.rs:127-432 *)
Definition counters : list (string * method) :=
  [("cernan.util.hopper.error.full", MSum);
   ("cernan.graphite.new_peer", MSum);
   ("cernan.graphite.packet", MSum);
   ("cernan.graphite.telemetry.received", MSum);
   ("cernan.graphite.bad_packet", MSum);
   ("cernan.statsd.packet", MSum);
   ("cernan.statsd.bad_packet", MSum);
   ("cernan.native.payload.success", MSum);
   ("cernan.native.payload.parse.failure", MSum);
   ("cernan.avro.payload.success", MSum);
   ("cernan.avro.payload.parse.failure", MSum);
   ("cernan.avro.payload.io.failure", MSum);
   ("cernan.sinks.elasticsearch.records.delivery", MSum);
   ("cernan.sinks.elasticsearch.internal.buffer_len", MSum);
   ("cernan.sinks.elasticsearch.records.total_delivered", MSum);
   ("cernan.sinks.elasticsearch.records.total_failed", MSum);
   ("cernan.sinks.elasticsearch.error.unknown", MSum);
   ("cernan.sinks.elasticsearch.error.bulk_action.index", MSum);
   ("cernan.sinks.elasticsearch.error.bulk_action.create", MSum);
   ("cernan.sinks.elasticsearch.error.bulk_action.update", MSum);
   ("cernan.sinks.elasticsearch.error.bulk_action.delete", MSum);
   ("cernan.sinks.elasticsearch.error.api.index_not_found", MSum);
   ("cernan.sinks.elasticsearch.error.api.parsing", MSum);
   ("cernan.sinks.elasticsearch.error.api.mapper_parsing", MSum);
   ("cernan.sinks.elasticsearch.error.api.action_request_validation", MSum);
   ("cernan.sinks.elasticsearch.error.api.action_document_missing", MSum);
   ("cernan.sinks.elasticsearch.error.api.index_already_exists", MSum);
   ("cernan.sinks.elasticsearch.error.api.unknown", MSum);
   ("cernan.sinks.elasticsearch.error.client", MSum);
   ("cernan.sinks.wavefront.proxy.connection_attempts", MSum);
   ("cernan.sinks.wavefront.aggregations.total_stored", MSet);
   ("cernan.sinks.wavefront.aggregation.histogram", MSum);
   ("cernan.sinks.wavefront.aggregation.sum", MSum);
   ("cernan.sinks.wavefront.aggregation.set", MSum);
   ("cernan.sinks.wavefront.aggregation.summarize", MSum);
   ("cernan.sinks.wavefront.aggregation.summarize.total_percentiles", MSum);
   ("cernan.sinks.wavefront.delivery.success", MSum);
   ("cernan.sinks.wavefront.delivery.failure", MSum);
   ("cernan.sinks.wavefront.valve.closed", MSum);
   ("cernan.sinks.wavefront.valve.open", MSum);
   ("cernan.sinks.prometheus.aggregation.inside_baseball.windowed.purged", MSum);
   ("cernan.sinks.prometheus.exposition.inside_baseball.delay.sum", MSum);
   ("cernan.sinks.prometheus.aggregation.reportable", MSet);
   ("cernan.sinks.prometheus.report.success", MSum);
   ("cernan.sinks.prometheus.report.error", MSum);
   ("cernan.sinks.influxdb.delivery_attempts", MSum);
   ("cernan.sinks.influxdb.success", MSum);
   ("cernan.sinks.influxdb.failure.client_error", MSum);
   ("cernan.sinks.influxdb.failure.server_error", MSum);
   ("cernan.sinks.kafka.publish.success", MSum);
   ("cernan.sinks.kafka.publish.retry", MSum);
   ("cernan.sinks.kafka.publish.failure", MSum);
   ("cernan.sinks.kafka.publish.retry.failure", MSum);
   ("cernan.filters.delay.telemetry.accept", MSum);
   ("cernan.filters.delay.telemetry.reject", MSum);
   ("cernan.filters.delay.log.reject", MSum);
   ("cernan.filters.delay.log.accept", MSum);
   ("cernan.filters.json_encode.log.processed", MSum);
   ("cernan.filters.json_encode.log.parsed", MSum)].
(** the positions of the counters that are set with store instead of fetch_add: elasticsearch.rs:194, wavefront.rs:655,
    prometheus.rs:397, prometheus.rs:658 *)
Definition stored : list nat := [13; 30; 40; 42].

(** the callers of report_full_telemetry: file_server.rs:123-130, file_watcher.rs:93-100 and 149-156 *)
Inductive file_report := BytesRead | Switched | Truncated.
Definition report_name (r : file_report) : string :=
  match r with
  | BytesRead => "cernan.sources.file.bytes_read"
  | Switched => "cernan.sources.file.switch"
  | Truncated => "cernan.sources.file.truncation"
  end.

Section Internal.
Context `{Q : QLib}.

(** report_full_telemetry, internal.rs:46-63; [None]: the unwrap panics *)
Definition full_telemetry (now : Z) (name : string) (value : f64) (metadata : option (list (string * string))) : option telemetry :=
  match harden now (b_kind MSum (b_value value (b_name name soft_new))) with
  | HOk t => Some (fold_left (fun acc kv => t_set_tags (overlay_tag (fst kv) (snd kv) (t_tags acc)) acc)
                             (match metadata with Some m => m | None => [] end) t)
  | _ => None
  end.
(** the point of atom_telem! and atom_set_telem!, internal.rs:70-76, 87-93 *)
Definition atom_point (now : Z) (name : string) (kind : method) (value : N) : option telemetry :=
  match harden now (b_kind kind (b_timestamp now (b_value (fofZ (Z.of_N value)) (b_name name soft_new)))) with
  | HOk t => Some t
  | _ => None
  end.

(** where the thread of run is, internal.rs:112-454: in poll, at a counter of the sweep, draining Q, returned *)
Inductive iphase := PPoll | PSweep (i : nat) | PDrain | PGone.
(** the counters, Q with its top first, the thread, what was sent, whether something panicked *)
Record istate := mkIS { is_cells : nat -> N; is_q : list telemetry; is_phase : iphase; is_out : list event; is_panic : bool }.
Definition istate_init : istate := mkIS (fun _ => 0%N) [] PPoll [] false.

(** steps: another thread adds to a counter, stores to one, or reports; the thread of run makes its next step at a time
    (a poll that is under way times out); a poll fails; a poll sees an event *)
Inductive iact :=
| AAdd (i : nat) (n : N) | AStore (i : nat) (n : N) | AReport (now : Z) (r : file_report) (value : f64) (path : string)
| ATick (now : Z) | APollError | AEvent.

Definition set_cell (i : nat) (n : N) (c : nat -> N) : nat -> N := fun j => if j =? i then n else c j.
(** fetch_add wraps, usize of 64 bits *)
Definition fetch_add (n m : N) : N := ((n + m) mod 18446744073709551616)%N.

Section Run.
(** whether there are channels to send to *)
Variable fwd : bool.
(** util::send on all channels, as one entry of the log (util.rs:28-70 is modelled in FlowModel) *)
Definition isend (e : event) (out : list event) : list event := if fwd then out ++ [e] else out.

(** one step *)
Definition istep (s : istate) (a : iact) : istate :=
  if is_panic s then s else
  match a with
  | AAdd i n => mkIS (set_cell i (fetch_add (is_cells s i) n) (is_cells s)) (is_q s) (is_phase s) (is_out s) false
  | AStore i n => mkIS (set_cell i n (is_cells s)) (is_q s) (is_phase s) (is_out s) false
  | AReport now r value path =>
      match full_telemetry now (report_name r) value (Some [("file_path", path)]) with
      | Some t => mkIS (is_cells s) (t :: is_q s) (is_phase s) (is_out s) false
      | None => mkIS (is_cells s) (is_q s) (is_phase s) (is_out s) true
      end
  | ATick now =>
      match is_phase s with
      | PPoll => mkIS (is_cells s) (is_q s) (if fwd then PSweep 0 else PDrain) (is_out s) false
      | PSweep i =>
          match nth_error counters i with
          | Some (name, kind) =>
              let value := is_cells s i in
              let cells := set_cell i 0 (is_cells s) in
              if (value =? 0)%N then mkIS cells (is_q s) (PSweep (S i)) (is_out s) false
              else match atom_point now name kind value with
                   | Some t => mkIS cells (is_q s) (PSweep (S i)) (isend (ETelemetry t) (is_out s)) false
                   | None => mkIS cells (is_q s) (PSweep (S i)) (is_out s) true
                   end
          | None => mkIS (is_cells s) (is_q s) PDrain (is_out s) false
          end
      | PDrain =>
          match is_q s with
          | t :: q => mkIS (is_cells s) q PDrain (isend (ETelemetry t) (is_out s)) false
          | [] => mkIS (is_cells s) [] PPoll (is_out s) false
          end
      | PGone => s
      end
  | APollError => s
  | AEvent =>
      match is_phase s with
      | PPoll => mkIS (is_cells s) (is_q s) PGone (isend EShutdown (is_out s)) false
      | _ => s
      end
  end.
(** any interleaving *)
Definition irun (s : istate) (l : list iact) : istate := fold_left istep l s.
End Run.
End Internal.
