(** * Reading the configuration file, src/config.rs: from the parsed TOML value to
    the settings of all components, and from these to what main wires. *)
From Verif Require Import Base FloatFacts TopologyModel.
Open Scope string_scope. Open Scope list_scope. Open Scope nat_scope.

(** ** toml::Value, crate toml 0.4.  A table is a map from keys to values; its
    iteration order (a BTreeMap's, ascending keys) is the order of the list.  The
    text of the file is not modelled: toml::from_str is given, its failure is a
    panic before anything below happens (src/config.rs:219-220). *)
Inductive toml :=
| TStr (s : string) | TInt (z : Z) | TFloat (f : f64) | TBool (b : bool) | TDate (s : string)
| TArr (l : list toml) | TTab (l : list (string * toml)).
(** Value::get with a string: None unless a table *)
Definition tget (v : toml) (k : string) : option toml := match v with TTab l => alookup seqb k l | _ => None end.
(** Value::as_str, as_integer, as_float, as_bool, as_array, as_table *)
Definition as_str (v : toml) : option string := match v with TStr s => Some s | _ => None end.
Definition as_integer (v : toml) : option Z := match v with TInt z => Some z | _ => None end.
Definition as_float (v : toml) : option f64 := match v with TFloat f => Some f | _ => None end.
Definition as_bool (v : toml) : option bool := match v with TBool b => Some b | _ => None end.
Definition as_array (v : toml) : option (list toml) := match v with TArr l => Some l | _ => None end.
Definition as_table (v : toml) : option (list (string * toml)) := match v with TTab l => Some l | _ => None end.

(** unwrap and expect *)
Definition expect {A} (o : option A) : outcome A := match o with Some a => Going a | None => Panicked end.
(** [as u8], [as u16], [as u64] and [as usize] (64 bits) of an i64 *)
Definition to_u8 (z : Z) : Z := (z mod 2 ^ 8)%Z.
Definition to_u16 (z : Z) : Z := (z mod 2 ^ 16)%Z.
Definition to_u64 (z : Z) : Z := (z mod 2 ^ 64)%Z.
(** [as u64] of an f64: towards zero, saturating (older compilers leave the result
    open outside the range) *)
Definition f_to_u64 (f : f64) : Z :=
  match f with
  | S754_zero _ | S754_nan => 0%Z
  | S754_infinity s => if s then 0%Z else (2 ^ 64 - 1)%Z
  | S754_finite s m e =>
      let a := (if 0 <=? e then Z.pos m * 2 ^ e else Z.pos m / 2 ^ (- e))%Z in
      if s then 0%Z else Z.min a (2 ^ 64 - 1)%Z
  end.

(** a key that may be missing: [tbl.get(k).map(|v| v.as_X().expect(..)).unwrap_or(d)] *)
Definition field {A} (t : toml) (k : string) (as_x : toml -> option A) (d : A) : outcome A :=
  match tget t k with Some v => expect (as_x v) | None => Going d end.
(** the same with a cast behind as_integer *)
Definition num (cast : Z -> Z) (v : toml) : option Z := option_map cast (as_integer v).
(** [map] over a list, stopping at the first panic or exit *)
Fixpoint each_of {A B} (f : A -> outcome B) (l : list A) : outcome (list B) :=
  match l with
  | [] => Going []
  | x :: r => go! y <- f x; go! ys <- each_of f r; Going (y :: ys)
  end.
(** a [for] loop that may [continue]: the values of the rounds that do not *)
Fixpoint keep_of {A B} (f : A -> outcome (option B)) (l : list A) : outcome (list B) :=
  match l with
  | [] => Going []
  | x :: r => go! y <- f x; go! ys <- keep_of f r; Going (match y with Some b => b :: ys | None => ys end)
  end.
(** HashMap::insert of each pair in turn *)
Definition as_map {A} (l : list (string * A)) : list (string * A) :=
  fold_left (fun m kv => ainsert seqb (fst kv) (snd kv) m) l [].

(** the array of strings under "forwards", src/config.rs:321-330 and alike *)
Definition strings (v : toml) : outcome (list string) :=
  go! l <- expect (as_array v); each_of (fun s => expect (as_str s)) l.
Definition forwards_of (t : toml) : outcome (list string) :=
  match tget t "forwards" with Some v => strings v | None => Going [] end.
(** [tbl.get("enabled").unwrap_or(&Boolean(true)).as_bool().expect(..)],
    src/config.rs:732-736 and alike *)
Definition enabled (t : toml) : outcome bool := field t "enabled" as_bool true.

(** flushes_per_second, src/source/flush.rs:17-22 *)
Definition flushes_per_second : Z := 100%Z.
(** parse_flush_interval, src/config.rs:154-165; release arithmetic wraps *)
Definition parse_flush_interval (t : toml) (k : string) : outcome (option Z) :=
  match tget t k with
  | Some (TFloat f) => Going (Some (f_to_u64 (fmul f (fofZ flushes_per_second))))
  | Some (TInt i) => Going (Some (to_u64 (to_u64 i * flushes_per_second)))
  | Some _ => Panicked
  | None => Going None
  end.
Definition flush_of (t : toml) (k : string) (d : Z) : outcome Z :=
  go! o <- parse_flush_interval t k; Going (match o with Some x => x | None => d end).

(** What the process gets from outside: the environment (None: unset or not
    Unicode), Display of a TOML string, Display of integers and floats, Path::join,
    whether a text is a regular expression. *)
Class Host := {
  env_var : string -> option string;
  show_str : string -> string;
  show_int : Z -> string;
  show_float : f64 -> string;
  path_join : string -> string -> string;
  regex_ok : string -> bool;
}.

(** ** The settings of the components *)
Definition tags := list (string * string).
(** src/sink/console.rs:23-48 *)
Record console_cfg := mkConsole { cc_path : string; cc_bin_width : Z; cc_flush : Z; cc_tags : tags }.
(** PadControl and WavefrontConfig, src/sink/wavefront.rs:40-138 *)
Record pad_cfg := mkPad { pd_set : bool; pd_sum : bool; pd_summarize : bool; pd_histogram : bool }.
Record wavefront_cfg := mkWavefront { wc_path : string; wc_pad : pad_cfg; wc_percentiles : list (string * f64); wc_port : Z;
  wc_age : option Z; wc_host : string; wc_bin_width : Z; wc_flush : Z; wc_tags : tags }.
(** src/sink/influxdb.rs:38-75 *)
Record influx_cfg := mkInflux { ic_path : string; ic_port : Z; ic_secure : bool; ic_host : string; ic_db : string; ic_flush : Z; ic_tags : tags }.
(** src/sink/prometheus.rs:56-93; [gzip] is false and cannot be set *)
Record prometheus_cfg := mkPrometheus { pc_path : string; pc_age : option Z; pc_port : Z; pc_host : string; pc_capacity : Z; pc_tags : tags }.
(** src/sink/elasticsearch.rs:52-102 *)
Record elastic_cfg := mkElastic { ec_path : string; ec_limit : Z; ec_port : Z; ec_host : string; ec_prefix : option string;
  ec_secure : bool; ec_type : string; ec_flush : Z; ec_tags : tags }.
(** src/sink/native.rs:32-62 *)
Record nsink_cfg := mkNsink { nc_path : string; nc_port : Z; nc_host : string; nc_flush : Z; nc_tags : tags }.
(** src/sink/kafka.rs:70-104 *)
Record kafka_cfg := mkKafka { kc_path : string; kc_topic : string; kc_brokers : string; kc_rdkafka : option (list (string * string));
  kc_flush : Z; kc_max : Z }.
(** src/filter/{delay_filter,flush_boundary_filter,json_encode_filter,programmable_filter}.rs *)
Record delay_cfg := mkDelay { dc_tolerance : Z; dc_forwards : list string }.
Record boundary_cfg := mkBoundary { bc_tolerance : Z; bc_forwards : list string }.
Record json_cfg := mkJson { jc_parse_line : bool; jc_forwards : list string; jc_tags : tags }.
Record prog_cfg := mkProg { gc_directory : string; gc_script : string; gc_forwards : list string; gc_tags : tags }.
(** src/source/file/file_server.rs:27-52 *)
Record file_cfg := mkFile { fc_id : string; fc_path : string; fc_forwards : list string; fc_max_read : Z }.
(** src/source/statsd.rs:36-83; a mask is the text of its expression *)
Record statsd_cfg := mkStatsd { sd_name : string; sd_port : Z; sd_host : string; sd_forwards : list string;
  sd_masks : list (string * list f64); sd_error : f64 }.
(** GraphiteConfig, TCPConfig and NativeServerConfig: src/source/graphite.rs:20-42,
    src/source/tcp.rs:15-36, src/source/native.rs:25-47 *)
Record tcp_cfg := mkTcp { tc_name : string; tc_port : Z; tc_host : string; tc_forwards : list string }.
(** src/source/internal.rs:22-39 *)
Record internal_cfg := mkInternal { nt_path : string; nt_forwards : list string }.

(** Args, src/config.rs:53-115, without the version *)
Record args := mkArgs {
  a_memory : Z; a_files_max : Z; a_queue : Z; a_data : string; a_scripts : string; a_flush : Z;
  a_programmable : list (string * prog_cfg);
  a_delay : list (string * delay_cfg);
  a_json : list (string * json_cfg);
  a_boundary : list (string * boundary_cfg);
  a_console : option console_cfg;
  a_null : option string;
  a_wavefront : option wavefront_cfg;
  a_influx : option influx_cfg;
  a_nsink : option nsink_cfg;
  a_prometheus : option prometheus_cfg;
  a_elastic : option elastic_cfg;
  a_kafkas : list kafka_cfg;
  a_files : list file_cfg;
  a_internal : internal_cfg;
  a_graphites : list (string * tcp_cfg);
  a_avros : list (string * tcp_cfg);
  a_natives : list (string * tcp_cfg);
  a_statsds : list (string * statsd_cfg);
}.

(** ** parse_config_file, src/config.rs:217-1133.  The optional maps and vectors of
    Args are lists here: main treats None and empty alike. *)
Section Parse.
Context `{H : Host}.

(** one global tag, src/config.rs:275-303 *)
Definition parse_tag (kv : string * toml) : outcome (string * string) :=
  let '(k, v) := kv in
  match as_str v with
  | Some s => Going (k, s)
  | None =>
      go! ktbl <- expect (as_table v);
      if match alookup seqb "environment" ktbl with Some ev => match as_bool ev with Some b => b | None => false end | None => false end
      then
        go! ek <- expect (alookup seqb "value" ktbl);
        go! name <- expect (as_str ek);
        go! s <- expect (env_var name);
        Going (k, s)
      else Exit 1
  end.
(** the global tags, src/config.rs:270-309 *)
Definition parse_tags (v : toml) : outcome tags :=
  match tget v "tags" with
  | Some tbl => go! l <- expect (as_table tbl); go! kvs <- each_of parse_tag l; Going (as_map kvs)
  | None => Going []
  end.

(** one delay filter, src/config.rs:317-340 *)
Definition parse_delay (e : string * toml) : outcome (option (string * delay_cfg)) :=
  let '(name, tbl) := e in
  match tget tbl "tolerance" with
  | Some tol =>
      go! tolerance <- expect (as_integer tol);
      go! fwds <- forwards_of tbl;
      Going (Some ("filters.delay." ++ name, mkDelay tolerance fwds)%string)
  | None => Going None
  end.
(** one JSON filter, src/config.rs:347-373 *)
Definition parse_json (gt : tags) (e : string * toml) : outcome (option (string * json_cfg)) :=
  let '(name, tbl) := e in
  go! pl <- field tbl "parse_line" as_bool false;
  go! fwds <- forwards_of tbl;
  Going (Some ("filters.json_encode." ++ name, mkJson pl fwds gt)%string).
(** one flush boundary filter, src/config.rs:380-405 *)
Definition parse_boundary (e : string * toml) : outcome (option (string * boundary_cfg)) :=
  let '(name, tbl) := e in
  match tget tbl "tolerance" with
  | Some tol =>
      go! tolerance <- expect (as_integer tol);
      go! fwds <- forwards_of tbl;
      Going (Some ("filters.flush_boundary." ++ name, mkBoundary (to_u64 tolerance) fwds)%string)
  | None => Going None
  end.
(** one programmable filter, src/config.rs:412-438 *)
Definition parse_prog (dir : string) (gt : tags) (e : string * toml) : outcome (option (string * prog_cfg)) :=
  let '(name, tbl) := e in
  match tget tbl "script" with
  | Some pth =>
      go! path <- expect (as_str pth);
      go! fwds <- forwards_of tbl;
      Going (Some ("filters.programmable." ++ name, mkProg dir (path_join dir path) fwds gt)%string)
  | None => Going None
  end.
(** a table of named sections, if the kind is there at all *)
Definition sections {B} (o : option toml) (f : string * toml -> outcome (option B)) : outcome (list B) :=
  match o with
  | Some v => go! l <- expect (as_table v); keep_of f l
  | None => Going []
  end.
(** a single section, if it is there *)
Definition section {B} (o : option toml) (f : toml -> outcome B) : outcome (option B) :=
  match o with Some v => go! b <- f v; Going (Some b) | None => Going None end.

(** src/config.rs:452-469 *)
Definition parse_console (fi : Z) (gt : tags) (snk : toml) : outcome console_cfg :=
  go! bw <- field snk "bin_width" as_integer 1%Z;
  go! f <- flush_of snk "flush_interval" fi;
  Going (mkConsole "sinks.console" bw f gt).
(** src/config.rs:475-493 *)
Definition parse_pad (snk : toml) : outcome pad_cfg :=
  match match tget snk "padding" with Some t => as_table t | None => None end with
  | Some tbl =>
      go! a <- field (TTab tbl) "set" as_bool false;
      go! b <- field (TTab tbl) "sum" as_bool false;
      go! c <- field (TTab tbl) "summarize" as_bool false;
      go! d <- field (TTab tbl) "histogram" as_bool false;
      Going (mkPad a b c d)
  | None => Going (mkPad false false false false)
  end.
(** src/sink/wavefront.rs:112-126 *)
Definition default_percentiles : list (string * f64) :=
  [("min", fzero); ("max", fone); ("2", fratio 2 100); ("9", fratio 9 100); ("25", fratio 25 100); ("50", fratio 50 100);
   ("75", fratio 75 100); ("90", fratio 90 100); ("91", fratio 91 100); ("95", fratio 95 100); ("98", fratio 98 100);
   ("99", fratio 99 100); ("999", fratio 999 1000)].
(** src/config.rs:495-506 *)
Definition parse_percentiles (snk : toml) : outcome (list (string * f64)) :=
  match match tget snk "percentiles" with Some t => as_table t | None => None end with
  | Some tbl => each_of (fun kv => go! f <- expect (as_float (snd kv)); Going (fst kv, f)) tbl
  | None => Going default_percentiles
  end.
(** src/config.rs:471-547, without the warning *)
Definition parse_wavefront (fi : Z) (gt : tags) (snk : toml) : outcome wavefront_cfg :=
  go! pad <- parse_pad snk;
  go! pc <- parse_percentiles snk;
  go! port <- field snk "port" (num to_u16) 2878%Z;
  go! age <- field snk "age_threshold" (fun v => option_map (fun z => Some (to_u64 z)) (as_integer v)) None;
  go! host <- field snk "host" as_str "localhost";
  go! bw <- field snk "bin_width" as_integer 1%Z;
  go! f <- flush_of snk "flush_interval" fi;
  Going (mkWavefront "sinks.wavefront" pad pc port age host bw f gt).
(** src/config.rs:549-588 *)
Definition parse_influx (fi : Z) (gt : tags) (snk : toml) : outcome influx_cfg :=
  go! port <- field snk "port" (num to_u16) 8086%Z;
  go! secure <- field snk "secure" as_bool true;
  go! host <- field snk "host" as_str "localhost";
  go! db <- field snk "db" as_str "cernan";
  go! f <- flush_of snk "flush_interval" fi;
  Going (mkInflux "sinks.influxdb" port secure host db f gt).
(** src/config.rs:590-634 *)
Definition parse_prometheus (gt : tags) (snk : toml) : outcome prometheus_cfg :=
  go! age <- field snk "age_threshold" (fun v => option_map (fun z => Some (to_u64 z)) (as_integer v)) None;
  go! port <- field snk "port" (num to_u16) 8086%Z;
  go! host <- field snk "host" as_str "localhost";
  go! cap <- field snk "capacity_in_seconds" (num to_u64) 600%Z;
  Going (mkPrometheus "sinks.prometheus" age port host cap gt).
(** src/config.rs:636-700 *)
Definition parse_elastic (fi : Z) (gt : tags) (snk : toml) : outcome elastic_cfg :=
  go! limit <- field snk "delivery_attempt_limit" (num to_u8) 10%Z;
  go! port <- field snk "port" (num to_u64) 9200%Z;
  go! host <- field snk "host" as_str "127.0.0.1";
  go! pre <- field snk "index-prefix" (fun v => option_map Some (as_str v)) None;
  go! secure <- field snk "secure" as_bool false;
  go! ty <- field snk "index_type" as_str "payload";
  go! f <- flush_of snk "flush_interval" fi;
  Going (mkElastic "sinks.elasticsearch" limit port host pre secure ty f gt).
(** src/config.rs:702-727 *)
Definition parse_nsink (fi : Z) (gt : tags) (snk : toml) : outcome nsink_cfg :=
  go! port <- field snk "port" (num to_u16) 1972%Z;
  go! host <- field snk "host" as_str "localhost";
  go! f <- flush_of snk "flush_interval" fi;
  Going (mkNsink "sinks.native" port host f gt).
(** src/config.rs:774-797; an option of another type is left out with a warning *)
Definition rdkafka_value (v : toml) : option string :=
  match v with
  | TInt i => Some (show_int i) | TStr s => Some s | TFloat f => Some (show_float f)
  | TBool b => Some (if b then "true" else "false")
  | _ => None
  end.
Definition parse_rdkafka (tbl : toml) : outcome (option (list (string * string))) :=
  match tget tbl "librdkafka" with
  | Some x =>
      go! l <- expect (as_table x);
      Going (Some (as_map (flat_map (fun kv => match rdkafka_value (snd kv) with Some s => [(fst kv, s)] | None => [] end) l)))
  | None => Going None
  end.
(** one kafka sink, src/config.rs:732-810 *)
Definition parse_kafka (fi : Z) (e : string * toml) : outcome (option kafka_cfg) :=
  let '(name, tbl) := e in
  go! on <- enabled tbl;
  if on then
    go! topic <- field tbl "topic" (fun v => option_map Some (as_str v)) None;
    match topic with
    | None => Going None
    | Some topic =>
        go! brokers <- field tbl "brokers" (fun v => option_map Some (as_str v)) None;
        match brokers with
        | None => Going None
        | Some brokers =>
            go! rd <- parse_rdkafka tbl;
            go! f <- flush_of tbl "flush_interval" fi;
            go! mx <- field tbl "max_message_bytes" (num to_u64) (10 * 2 ^ 20)%Z;
            Going (Some (mkKafka ("sinks.kafka." ++ name)%string topic brokers rd f mx))
        end
    end
  else Going None.

(** one file source, src/config.rs:823-864: named after its path, not after its key *)
Definition parse_file (e : string * toml) : outcome (option file_cfg) :=
  let '(_, tbl) := e in
  match tget tbl "path" with
  | Some pth =>
      go! p <- expect (as_str pth);
      go! fwds <- forwards_of tbl;
      go! mx <- field tbl "max_read_bytes" (num to_u64) 2048%Z;
      Going (Some (mkFile ("sources.files." ++ show_str p)%string p fwds mx))
  | None => Going None
  end.
(** one mapping of a statsd source, src/config.rs:912-935 *)
Definition parse_mask (e : string * toml) : outcome (string * list f64) :=
  go! mask <- expect (tget (snd e) "mask");
  go! re <- expect (as_str mask);
  go! _ <- expect (if regex_ok re then Some tt else None);
  go! bnds <- expect (tget (snd e) "bounds");
  go! l <- expect (as_array bnds);
  go! bounds <- each_of (fun v => expect (as_float v)) l;
  Going (re, bounds).
(** the mappings, src/config.rs:908-941: each one goes in front of those before it *)
Definition parse_mapping (tbl : toml) : outcome (list (string * list f64)) :=
  match tget tbl "mapping" with
  | Some cfg => go! l <- expect (as_table cfg); go! ms <- each_of parse_mask l; Going (fold_left (fun acc m => m :: acc) ms [])
  | None => Going []
  end.
(** assert!(!res.forwards.is_empty()) *)
Definition assert_forwards (l : list string) : outcome unit := match l with [] => Panicked | _ => Going tt end.
(** one statsd source, src/config.rs:871-957 *)
Definition parse_statsd (e : string * toml) : outcome (option (string * statsd_cfg)) :=
  let '(name, tbl) := e in
  go! on <- enabled tbl;
  if on then
    go! port <- field tbl "port" (num to_u16) 8125%Z;
    go! host <- field tbl "host" as_str "localhost";
    go! fwds <- forwards_of tbl;
    go! masks <- parse_mapping tbl;
    go! err <- field tbl "summarize_error_bound" as_float (fratio 1 100);
    go! _ <- assert_forwards fwds;
    Going (Some ("sources.statsd." ++ name, mkStatsd name port host fwds masks err)%string)
  else Going None.
(** one graphite or avro source, src/config.rs:965-1007, 1015-1057 *)
Definition parse_tcp (prefix : string) (dport : Z) (e : string * toml) : outcome (option (string * tcp_cfg)) :=
  let '(name, tbl) := e in
  go! on <- enabled tbl;
  if on then
    go! port <- field tbl "port" (num to_u16) dport;
    go! host <- field tbl "host" as_str "localhost";
    go! fwds <- forwards_of tbl;
    go! _ <- assert_forwards fwds;
    Going (Some (prefix ++ name, mkTcp name port host fwds)%string)
  else Going None.
(** one native source, src/config.rs:1065-1104 *)
Definition parse_nsource (e : string * toml) : outcome (option (string * tcp_cfg)) :=
  let '(name, tbl) := e in
  go! on <- enabled tbl;
  if on then
    go! port <- field tbl "port" (num to_u16) 1972%Z;
    go! ip <- field tbl "ip" as_str "0.0.0.0";
    go! fwds <- forwards_of tbl;
    Going (Some ("sources.native." ++ name, mkTcp ("sources.native." ++ name) port ip fwds)%string)
  else Going None.
(** the internal source, src/config.rs:1109-1129 *)
Definition parse_internal (o : option toml) : outcome internal_cfg :=
  match o with
  | Some src => go! fwds <- forwards_of src; Going (mkInternal "sources.internal" fwds)
  | None => Going (mkInternal "sources.internal" [])
  end.

(** [sinks.as_table().expect(..)] and [.get] of it; [filters] is not checked *)
Definition top_table (v : toml) (k : string) : outcome toml :=
  match tget v k with Some t => go! l <- expect (as_table t); Going (TTab l) | None => Going (TTab []) end.
Definition top_value (v : toml) (k : string) : toml := match tget v k with Some t => t | None => TTab [] end.

(** parse_config_file behind toml::from_str *)
Definition parse_config (v : toml) : outcome args :=
  go! queue <- field v "max-hopper-queue-bytes" (num to_u64) (1048576 * 100)%Z;
  go! files <- field v "max-hopper-queue-files" (num to_u64) 100%Z;
  go! mem <- field v "max-hopper-in-memory-bytes" (num to_u64) 1048576%Z;
  go! data <- field v "data-directory" as_str "/tmp/cernan-data";
  go! scripts <- field v "scripts-directory" as_str "/tmp/cernan-scripts";
  go! fi <- flush_of v "flush-interval" (60 * flushes_per_second)%Z;
  go! gt <- parse_tags v;
  let fs := top_value v "filters" in
  go! delays <- sections (tget fs "delay") parse_delay;
  go! jsons <- sections (tget fs "json_encode") (parse_json gt);
  go! boundaries <- sections (tget fs "flush_boundary") parse_boundary;
  go! progs <- sections (tget fs "programmable") (parse_prog scripts gt);
  go! ss <- top_table v "sinks";
  go! console <- section (tget ss "console") (parse_console fi gt);
  go! wavefront <- section (tget ss "wavefront") (parse_wavefront fi gt);
  go! influx <- section (tget ss "influxdb") (parse_influx fi gt);
  go! prometheus <- section (tget ss "prometheus") (parse_prometheus gt);
  go! elastic <- section (tget ss "elasticsearch") (parse_elastic fi gt);
  go! nsink <- section (tget ss "native") (parse_nsink fi gt);
  go! kafkas <- sections (tget ss "kafka") (parse_kafka fi);
  go! us <- top_table v "sources";
  go! filesrc <- sections (tget us "files") parse_file;
  go! statsds <- sections (tget us "statsd") parse_statsd;
  go! graphites <- sections (tget us "graphite") (parse_tcp "sources.graphite." 2003);
  go! avros <- sections (tget us "avro") (parse_tcp "sources.avro." 2002);
  go! natives <- sections (tget us "native") parse_nsource;
  go! internal <- parse_internal (tget us "internal");
  Going (mkArgs mem files queue data scripts fi (as_map progs) (as_map delays) (as_map jsons) (as_map boundaries)
    console (option_map (fun _ => "sinks.null") (tget ss "null")) wavefront influx nsink prometheus elastic kafkas
    filesrc internal (as_map graphites) (as_map avros) (as_map natives) (as_map statsds)).
End Parse.

(** ** What main takes from Args, src/bin/cernan.rs:148-405; for hash maps the order
    is some iteration order (here that of insertion) *)
Definition olist {A} (o : option A) : list A := match o with Some a => [a] | None => [] end.
Definition main_config (a : args) : config := mkConfig
  (olist (a_null a) ++ map cc_path (olist (a_console a)) ++ map wc_path (olist (a_wavefront a)) ++ map pc_path (olist (a_prometheus a)) ++
   map ic_path (olist (a_influx a)) ++ map nc_path (olist (a_nsink a)) ++ map ec_path (olist (a_elastic a)) ++ map kc_path (a_kafkas a))
  (map (fun c => (fst c, gc_forwards (snd c))) (a_programmable a) ++ map (fun c => (fst c, dc_forwards (snd c))) (a_delay a) ++
   map (fun c => (fst c, jc_forwards (snd c))) (a_json a) ++ map (fun c => (fst c, bc_forwards (snd c))) (a_boundary a))
  (map (fun c => (fst c, tc_forwards (snd c))) (a_natives a))
  ([(nt_path (a_internal a), nt_forwards (a_internal a))] ++ map (fun c => (fst c, sd_forwards (snd c))) (a_statsds a) ++
   map (fun c => (fst c, tc_forwards (snd c))) (a_graphites a) ++ map (fun c => (fst c, tc_forwards (snd c))) (a_avros a) ++
   map (fun c => (fc_id c, fc_forwards c)) (a_files a)).
