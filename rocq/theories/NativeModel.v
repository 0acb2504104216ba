(** * The native protocol: src/protocols/native.rs (generated), src/sink/native.rs,
    src/source/native.rs *)
From Verif Require Import Base FloatFacts TelemetryModel FiltersModel ProtoModel FramingModel.
Open Scope string_scope. Open Scope list_scope. Open Scope nat_scope.

(** ** Messages *)

(** enum AggregationMethod, src/protocols/native.rs:1076-1096 *)
Definition method_num (m : method) : N := match m with MSum => 1 | MSet => 2 | MSummarize => 3 | MHistogram => 4 end%N.
Definition method_of (n : N) : option method :=
  match n with 1%N => Some MSum | 2%N => Some MSet | 3%N => Some MSummarize | 4%N => Some MHistogram | _ => None end.

(** struct Telemetry, src/protocols/native.rs:606-618.  Unknown fields are left
    out: they are kept by the generated code and never looked at. *)
Record wpoint := mkWPoint {
  w_name : option string;
  w_samples : list f64;
  w_persisted : option bool;
  w_method : option method;
  w_meta : tagmap;
  w_ts : option Z;
  w_bounds : list f64;
}.
Definition wpoint_new : wpoint := mkWPoint None [] None None [] None [].
(** struct LogLine, src/protocols/native.rs:293-302 *)
Record wline := mkWLine {
  wl_path : option string;
  wl_value : option string;
  wl_meta : tagmap;
  wl_ts : option Z;
}.
Definition wline_new : wline := mkWLine None None [] None.

(** ** Serialization *)
Definition opt_field {A} (num : N) (f : A -> wire) (o : option A) : list (N * wire) :=
  match o with Some x => [(num, f x)] | None => [] end.
Definition string_field (s : string) : wire := WLen (sbytes s).
(** one entry of a map field: a message with the key as field 1, the value as
    field 2 (write_map_with_cached_sizes of the crate) *)
Definition entry_bytes (kv : string * string) : list N :=
  write_field (1%N, string_field (fst kv)) ++ write_field (2%N, string_field (snd kv)).
Definition meta_fields (num : N) (m : tagmap) : list (N * wire) := map (fun kv => (num, WLen (entry_bytes kv))) m.
(** the packed samples, src/protocols/native.rs:941-948 *)
Definition samples_field (xs : list f64) : list (N * wire) :=
  match xs with [] => [] | _ => [(2%N, WLen (List.concat (map write_double xs)))] end.
(** Telemetry::write_to_with_cached_sizes, src/protocols/native.rs:936-963 *)
Definition point_fields (p : wpoint) : list (N * wire) :=
  opt_field 1 string_field (w_name p) ++
  samples_field (w_samples p) ++
  opt_field 3 (fun b : bool => WVarint (if b then 1 else 0)) (w_persisted p) ++
  opt_field 4 (fun m => WVarint (method_num m)) (w_method p) ++
  meta_fields 5 (w_meta p) ++
  opt_field 6 (fun z => WVarint (u64_of z)) (w_ts p) ++
  map (fun x => (7%N, WFixed64 (Z.to_N (fbits x)))) (w_bounds p).
Definition fields_bytes (fs : list (N * wire)) : list N := List.concat (map write_field fs).
Definition point_bytes (p : wpoint) : list N := fields_bytes (point_fields p).
(** LogLine::write_to_with_cached_sizes, src/protocols/native.rs:495-508 *)
Definition line_fields (l : wline) : list (N * wire) :=
  opt_field 1 string_field (wl_path l) ++ opt_field 2 string_field (wl_value l) ++
  meta_fields 3 (wl_meta l) ++ opt_field 4 (fun z => WVarint (u64_of z)) (wl_ts l).
Definition line_bytes (l : wline) : list N := fields_bytes (line_fields l).

(** ** Sizes.  Simplification: the u32 sums do not wrap (messages below 4 GiB). *)
Definition string_size (s : string) : N :=
  let len := N.of_nat (String.length s) in (1 + varint_size len + len)%N.
Definition meta_size (m : tagmap) : N :=
  sumN (map (fun kv => let len := (string_size (fst kv) + string_size (snd kv))%N in (1 + varint_size len + len)%N) m).
Definition opt_size {A} (f : A -> N) (o : option A) : N := match o with Some x => f x | None => 0%N end.
(** Telemetry::compute_size, src/protocols/native.rs:912-934: for the packed
    samples (916-918) the size of the number of samples is taken, while 944 writes
    the number of bytes, eight times as much *)
Definition point_size (p : wpoint) : N :=
  (opt_size string_size (w_name p) +
   match w_samples p with
   | [] => 0
   | l => let n := N.of_nat (List.length l) in 1 + varint_size n + n * 8
   end +
   opt_size (fun _ => 2) (w_persisted p) +
   opt_size (fun m => 1 + varint_size (method_num m)) (w_method p) +
   meta_size (w_meta p) +
   opt_size (fun z => 1 + varint_size (u64_of z)) (w_ts p) +
   9 * N.of_nat (List.length (w_bounds p)))%N.
(** LogLine::compute_size, src/protocols/native.rs:478-493 *)
Definition line_size (l : wline) : N :=
  (opt_size string_size (wl_path l) + opt_size string_size (wl_value l) + meta_size (wl_meta l) +
   opt_size (fun z => 1 + varint_size (u64_of z)) (wl_ts l))%N.
(** Payload::compute_size, src/protocols/native.rs:154-166 *)
Definition nested_size (len : N) : N := (1 + varint_size len + len)%N.
Definition payload_size (ps : list wpoint) (ls : list wline) : N :=
  (sumN (map (fun p => nested_size (point_size p)) ps) + sumN (map (fun l => nested_size (line_size l)) ls))%N.
(** Payload::write_to_with_cached_sizes, src/protocols/native.rs:169-182: a nested
    message is preceded by its computed size *)
Definition nested_bytes (num : N) (size : N) (bs : list N) : list N := write_tag num 2 ++ write_varint size ++ bs.
Definition payload_bytes (ps : list wpoint) (ls : list wline) : list N :=
  List.concat (map (fun p => nested_bytes 2 (point_size p) (point_bytes p)) ps) ++
  List.concat (map (fun l => nested_bytes 3 (line_size l) (line_bytes l)) ls).

(** ** Parsing.  [utf8] is the check the crate makes on strings. *)
Section Parse.
Variable utf8 : list N -> bool.

Definition read_string (bs : list N) : option string := if utf8 bs then Some (bstring bs) else None.
(** read_map_into of the crate: key and value default to the empty string *)
Fixpoint entry_merge (k v : string) (fs : list (N * wire)) : option (string * string) :=
  match fs with
  | [] => Some (k, v)
  | (1%N, w) :: r => match w with WLen bs => match read_string bs with Some s => entry_merge s v r | None => None end | _ => None end
  | (2%N, w) :: r => match w with WLen bs => match read_string bs with Some s => entry_merge k s r | None => None end | _ => None end
  | _ :: r => entry_merge k v r
  end.
Definition read_entry (bs : list N) : option (string * string) :=
  match parse_fields bs with Some fs => entry_merge "" "" fs | None => None end.
(** read_repeated_double_into of the crate: packed or single *)
Definition read_doubles (w : wire) : option (list f64) :=
  match w with
  | WLen bs => read_packed (1 + List.length bs) bs
  | WFixed64 n => Some [read_double n]
  | _ => None
  end.
(** Telemetry::merge_from, src/protocols/native.rs:865-908, one field *)
Definition point_field (p : wpoint) (f : N * wire) : option wpoint :=
  match f with
  | (1%N, w) => match w with
                | WLen bs => match read_string bs with
                             | Some s => Some (mkWPoint (Some s) (w_samples p) (w_persisted p) (w_method p) (w_meta p) (w_ts p) (w_bounds p))
                             | None => None end
                | _ => None end
  | (2%N, w) => match read_doubles w with
                | Some l => Some (mkWPoint (w_name p) (w_samples p ++ l) (w_persisted p) (w_method p) (w_meta p) (w_ts p) (w_bounds p))
                | None => None end
  | (3%N, w) => match w with
                | WVarint n => Some (mkWPoint (w_name p) (w_samples p) (Some (negb (n mod 2 ^ 32 =? 0)%N)) (w_method p) (w_meta p) (w_ts p) (w_bounds p))
                | _ => None end
  | (4%N, w) => match w with
                | WVarint n => match method_of (n mod 2 ^ 32)%N with
                               | Some m => Some (mkWPoint (w_name p) (w_samples p) (w_persisted p) (Some m) (w_meta p) (w_ts p) (w_bounds p))
                               | None => None end
                | _ => None end
  | (5%N, w) => match w with
                | WLen bs => match read_entry bs with
                             | Some (k, v) => Some (mkWPoint (w_name p) (w_samples p) (w_persisted p) (w_method p) (tm_insert k v (w_meta p)) (w_ts p) (w_bounds p))
                             | None => None end
                | _ => None end
  | (6%N, w) => match w with
                | WVarint n => Some (mkWPoint (w_name p) (w_samples p) (w_persisted p) (w_method p) (w_meta p) (Some (i64_of n)) (w_bounds p))
                | _ => None end
  | (7%N, w) => match read_doubles w with
                | Some l => Some (mkWPoint (w_name p) (w_samples p) (w_persisted p) (w_method p) (w_meta p) (w_ts p) (w_bounds p ++ l))
                | None => None end
  | _ => Some p
  end.
Fixpoint merge_all {M} (step : M -> N * wire -> option M) (m : M) (fs : list (N * wire)) : option M :=
  match fs with [] => Some m | f :: r => match step m f with Some m' => merge_all step m' r | None => None end end.
Definition read_message {M} (step : M -> N * wire -> option M) (m : M) (bs : list N) : option M :=
  match parse_fields bs with Some fs => merge_all step m fs | None => None end.
(** LogLine::merge_from, src/protocols/native.rs:448-475, one field *)
Definition line_field (l : wline) (f : N * wire) : option wline :=
  match f with
  | (1%N, w) => match w with
                | WLen bs => match read_string bs with Some s => Some (mkWLine (Some s) (wl_value l) (wl_meta l) (wl_ts l)) | None => None end
                | _ => None end
  | (2%N, w) => match w with
                | WLen bs => match read_string bs with Some s => Some (mkWLine (wl_path l) (Some s) (wl_meta l) (wl_ts l)) | None => None end
                | _ => None end
  | (3%N, w) => match w with
                | WLen bs => match read_entry bs with
                             | Some (k, v) => Some (mkWLine (wl_path l) (wl_value l) (tm_insert k v (wl_meta l)) (wl_ts l))
                             | None => None end
                | _ => None end
  | (4%N, w) => match w with
                | WVarint n => Some (mkWLine (wl_path l) (wl_value l) (wl_meta l) (Some (i64_of n)))
                | _ => None end
  | _ => Some l
  end.
(** Payload::merge_from, src/protocols/native.rs:134-151, one field; the payload is
    the list of points and the list of lines *)
Definition payload_field (pl : list wpoint * list wline) (f : N * wire) : option (list wpoint * list wline) :=
  match f with
  | (2%N, w) => match w with
                | WLen bs => match read_message point_field wpoint_new bs with Some p => Some (fst pl ++ [p], snd pl) | None => None end
                | _ => None end
  | (3%N, w) => match w with
                | WLen bs => match read_message line_field wline_new bs with Some l => Some (fst pl, snd pl ++ [l]) | None => None end
                | _ => None end
  | _ => Some pl
  end.
(** protobuf::parse_from_bytes::<Payload> *)
Definition parse_payload (bs : list N) : option (list wpoint * list wline) := read_message payload_field ([], []) bs.

(** ** The source *)
Context `{Q : QLib}.
(** milliseconds to seconds, (x as f64 * 0.001) as i64: src/source/native.rs:152,191 *)
Definition ms_seconds (ms : Z) : Z := ftrunc (fmul (fofZ ms) (fratio 1 1000)).
Definition odefault {A} (d : A) (o : option A) : A := match o with Some x => x | None => d end.
(** [for (key, value) in meta.drain()]: the order of a Rust map is unspecified, here
    it is the order of the list *)
Definition drain_tags (m : tagmap) (own : option tagmap) : option tagmap :=
  fold_left (fun acc kv => overlay_tag (fst kv) (snd kv) acc) m own.
(** one point, src/source/native.rs:145-183: nothing without samples; None when
    harden panics (histograms of a library that refuses the default bounds) or the
    assertion of insert fails *)
Definition point_event (now : Z) (p : wpoint) : option (list event) :=
  match w_samples p with
  | [] => Some []
  | x :: rest =>
      let b := b_value x (b_name (odefault "" (w_name p)) soft_new) in
      let b := b_kind (odefault MSummarize (w_method p)) b in
      let b := b_persist (odefault false (w_persisted p)) b in
      let b := b_timestamp (ms_seconds (odefault 0%Z (w_ts p))) b in
      match harden now b with
      | HOk t =>
          let t := t_set_tags (drain_tags (w_meta p) (t_tags t)) t in
          match fold_left (fun o y => match o with Some t => t_insert y t | None => None end) rest (Some t) with
          | Some t => Some [ETelemetry t]
          | None => None
          end
      | _ => None
      end
  end.
(** one line, src/source/native.rs:185-199; LogLine::new, src/metric/logline.rs:30-44 *)
Definition line_event (l : wline) : event :=
  ELog (mkLog (ms_seconds (odefault 0%Z (wl_ts l))) (odefault "" (wl_path l)) (odefault "" (wl_value l)) []
              (drain_tags (wl_meta l) None)).
Inductive nend := NOk | NBad | NPanic.
Fixpoint point_events (now : Z) (ps : list wpoint) : list event * bool :=
  match ps with
  | [] => ([], true)
  | p :: r => match point_event now p with
              | Some evs => let '(evs', ok) := point_events now r in (evs ++ evs', ok)
              | None => ([], false)
              end
  end.
(** handle_stream_payload, src/source/native.rs:134-203: the events sent, and
    whether it returned Ok, Err, or panicked *)
Definition handle_payload (now : Z) (bs : list N) : list event * nend :=
  match parse_payload bs with
  | None => ([], NBad)
  | Some (ps, ls) =>
      match point_events now ps with
      | (evs, true) => (evs ++ map line_event ls, NOk)
      | (evs, false) => (evs, NPanic)
      end
  end.
(** how the handler of a connection ends *)
Inductive hend := HStream (e : perr) | HParse | HDied.
(** handle_stream, src/source/native.rs:64-131, for a limit of [max] bytes on
    payloads (1_048_576 in the code, [native_max]).  Simplifications: no shutdown
    signal arrives; the clock does not move (it is only read when a point has no
    timestamp, and the builder always gets one). *)
Fixpoint native_loop (fuel cap max : nat) (now : Z) (r : reader) : list event * hend :=
  match fuel with
  | 0 => ([], HStream EIo)
  | S fuel =>
      match read cap max r with
      | (inl p, r') => match handle_payload now p with
                       | (evs, NOk) => let '(evs', e) := native_loop fuel cap max now r' in (evs ++ evs', e)
                       | (evs, NBad) => (evs, HParse)
                       | (evs, NPanic) => (evs, HDied)
                       end
      | (inr EWouldBlock, r') => native_loop fuel cap max now r'
      | (inr e, _) => ([], HStream e)
      end
  end.
Definition native_stream (cap max : nat) (now : Z) (sc : list arrival) : list event * hend :=
  native_loop (1 + sock_size sc) cap max now (reader_new sc).
(** the limit on payloads, src/source/native.rs:72 *)
Definition native_max : nat := N.to_nat 1048576.

(** ** The sink *)

(** the point of flush, src/sink/native.rs:122-150: the tags of the point over those
    of the sink (TagIter), collected in a map *)
Definition collect_tags (l : tagmap) : tagmap := fold_left (fun m kv => tm_insert (fst kv) (snd kv) m) l [].
Definition sink_point (d : tagmap) (t : telemetry) : wpoint :=
  mkWPoint (Some (t_name t)) (t_samples t) (Some (t_persist t)) (Some (t_kind t))
           (collect_tags (tag_iter (t_tags t) d)) (Some (wrap64 (t_timestamp t * 1000))) [].
(** src/sink/native.rs:151-168 *)
Definition sink_line (d : tagmap) (l : logline) : wline :=
  mkWLine (Some (l_path l)) (Some (l_value l)) (collect_tags (tag_iter (l_tags l) d)) (Some (wrap64 (l_time l * 1000))).
Definition sink_points (d : tagmap) (evs : list event) : list wpoint :=
  flat_map (fun e => match e with ETelemetry t => [sink_point d t] | _ => [] end) evs.
Definition sink_lines (d : tagmap) (evs : list event) : list wline :=
  flat_map (fun e => match e with ELog l => [sink_line d l] | _ => [] end) evs.
(** BigEndian::write_u32 *)
Definition be4 (n : N) : list N := [(n / 16777216) mod 256; (n / 65536) mod 256; (n / 256) mod 256; n mod 256]%N.
(** what one attempt writes, src/sink/native.rs:173-187 *)
Definition sink_frame (d : tagmap) (evs : list event) : list N :=
  be4 (payload_size (sink_points d evs) (sink_lines d evs)) ++ payload_bytes (sink_points d evs) (sink_lines d evs).

(** A connection: the bytes it took so far and how many more it is going to take
    before writes on it fail. *)
Record nconn := mkNConn { k_got : list N; k_left : nat }.
Record nsink := mkNSink {
  n_tags : tagmap;
  n_buffer : list event;
  n_attempts : N;
  n_stream : option nconn;
  n_closed : list nconn;      (** connections given up, oldest first *)
}.
(** writes [bs] as far as the connection takes it *)
Definition conn_write (bs : list N) (c : nconn) : nconn :=
  mkNConn (k_got c ++ firstn (k_left c) bs) (k_left c - List.length bs).

(** [early n]: how many bytes of a frame of [n] bytes have left the two write buffers
    (CodedOutputStream and BufWriter, neither in /repo) when
    write_to_with_cached_sizes returns.  Errors on these are reported; the rest is
    written when the buffers are dropped, and errors are ignored there. *)
Variable early : nat -> nat.
(** one turn of the loop, src/sink/native.rs:178-198: with a connection, write; true
    if the write is taken for a success and flush returns *)
Definition attempt (frame : list N) (s : nsink) : nsink * bool :=
  match n_stream s with
  | Some c =>
      if early (List.length frame) <=? k_left c
      then (mkNSink (n_tags s) [] (n_attempts s) (Some (conn_write frame c)) (n_closed s), true)
      else (mkNSink (n_tags s) (n_buffer s) (N.min (n_attempts s + 1) 4294967295) None (n_closed s ++ [conn_write frame c]), false)
  | None => (s, false)
  end.
(** the loop of flush, src/sink/native.rs:177-203; [conns] are the answers of
    connect: refused, or a connection that takes so many bytes.  None: with these
    answers the loop has not ended. *)
Fixpoint send_loop (frame : list N) (s : nsink) (conns : list (option nat)) : option nsink :=
  match attempt frame s with
  | (s', true) => Some s'
  | (s', false) =>
      match conns with
      | [] => None
      | a :: r => send_loop frame (mkNSink (n_tags s') (n_buffer s') (n_attempts s') (option_map (mkNConn []) a) (n_closed s')) r
      end
  end.
(** flush, src/sink/native.rs:117-203: the buffer is drained first (121) *)
Definition native_flush (conns : list (option nat)) (s : nsink) : option nsink :=
  send_loop (sink_frame (n_tags s) (n_buffer s)) (mkNSink (n_tags s) [] (n_attempts s) (n_stream s) (n_closed s)) conns.
(** deliver, deliver_line, src/sink/native.rs:104-110 (other events are not
    delivered to a sink) *)
Definition native_deliver (e : event) (s : nsink) : nsink :=
  mkNSink (n_tags s) (n_buffer s ++ [e]) (n_attempts s) (n_stream s) (n_closed s).
End Parse.
