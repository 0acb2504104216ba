(** * Specification of reading the configuration file. *)
From Verif Require Import Base TopologyModel TopologySpec ConfigModel.
Open Scope string_scope. Open Scope list_scope. Open Scope nat_scope.

(** no table of a TOML file has a key twice *)
Inductive toml_ok : toml -> Prop :=
| ok_str s : toml_ok (TStr s) | ok_int z : toml_ok (TInt z) | ok_float f : toml_ok (TFloat f)
| ok_bool b : toml_ok (TBool b) | ok_date s : toml_ok (TDate s)
| ok_arr l : Forall toml_ok l -> toml_ok (TArr l)
| ok_tab l : NoDup (map fst l) -> Forall (fun kv => toml_ok (snd kv)) l -> toml_ok (TTab l).

(** the value at [sec.kind] *)
Definition at2 (t : toml) (sec kind : string) : option toml := match tget t sec with Some s => tget s kind | None => None end.
(** [s] is the section [sec.kind.n] *)
Definition named (t : toml) (sec kind n : string) (s : toml) : Prop := exists l, at2 t sec kind = Some (TTab l) /\ In (n, s) l.
Definition has (s : toml) (k : string) : Prop := tget s k <> None.
(** not switched off *)
Definition on (s : toml) : Prop := tget s "enabled" <> Some (TBool false).

(** the sinks of which there is at most one *)
Definition single_sinks : list string := ["null"; "console"; "wavefront"; "influxdb"; "prometheus"; "elasticsearch"; "native"].
(** the section of the component [id] (file sources are named after their path, not
    their section) *)
Definition filter_kinds : list string := ["delay"; "flush_boundary"; "json_encode"; "programmable"].
Definition source_kinds : list string := ["statsd"; "graphite"; "avro"; "native"].
Inductive section_of (t : toml) : string -> toml -> Prop :=
| SO_single k s : In k single_sinks -> at2 t "sinks" k = Some s -> section_of t ("sinks." ++ k)%string s
| SO_kafka n s : named t "sinks" "kafka" n s -> section_of t ("sinks.kafka." ++ n)%string s
| SO_filter kind n s : In kind filter_kinds -> named t "filters" kind n s -> section_of t ("filters." ++ kind ++ "." ++ n)%string s
| SO_source kind n s : In kind source_kinds -> named t "sources" kind n s -> section_of t ("sources." ++ kind ++ "." ++ n)%string s
| SO_internal s : at2 t "sources" "internal" = Some s -> section_of t "sources.internal" s.
(** its flush interval as written: its own, else the global one, else 60 seconds *)
Definition interval (t s : toml) : toml :=
  match tget s "flush_interval" with
  | Some v => v
  | None => match tget t "flush-interval" with Some v => v | None => TInt 60 end
  end.

(** The components that the file calls for. *)
Inductive declared `{H : Host} (t : toml) : string -> Prop :=
| D_single k : In k single_sinks -> at2 t "sinks" k <> None -> declared t ("sinks." ++ k)%string
| D_kafka n s : named t "sinks" "kafka" n s -> on s -> has s "topic" -> has s "brokers" -> declared t ("sinks.kafka." ++ n)%string
| D_delay n s : named t "filters" "delay" n s -> has s "tolerance" -> declared t ("filters.delay." ++ n)%string
| D_boundary n s : named t "filters" "flush_boundary" n s -> has s "tolerance" -> declared t ("filters.flush_boundary." ++ n)%string
| D_json n s : named t "filters" "json_encode" n s -> declared t ("filters.json_encode." ++ n)%string
| D_prog n s : named t "filters" "programmable" n s -> has s "script" -> declared t ("filters.programmable." ++ n)%string
| D_source kind n s : In kind source_kinds -> named t "sources" kind n s -> on s ->
    declared t ("sources." ++ kind ++ "." ++ n)%string
| D_file n s p : named t "sources" "files" n s -> tget s "path" = Some (TStr p) -> declared t ("sources.files." ++ show_str p)%string
| D_internal : declared t "sources.internal".

(** ** What there is to be seen of the settings *)
Inductive comp :=
| CNull | CConsole (c : console_cfg) | CWavefront (c : wavefront_cfg) | CInflux (c : influx_cfg) | CPrometheus (c : prometheus_cfg)
| CElastic (c : elastic_cfg) | CNsink (c : nsink_cfg) | CKafka (c : kafka_cfg)
| CDelay (c : delay_cfg) | CBoundary (c : boundary_cfg) | CJson (c : json_cfg) | CProg (c : prog_cfg)
| CFile (c : file_cfg) | CStatsd (c : statsd_cfg) | CGraphite (c : tcp_cfg) | CAvro (c : tcp_cfg) | CNsource (c : tcp_cfg)
| CInternal (c : internal_cfg).
(** every component with its id, the id under which main starts it *)
Definition components (a : args) : list (string * comp) :=
  map (fun p => (p, CNull)) (olist (a_null a)) ++
  map (fun c => (cc_path c, CConsole c)) (olist (a_console a)) ++
  map (fun c => (wc_path c, CWavefront c)) (olist (a_wavefront a)) ++
  map (fun c => (pc_path c, CPrometheus c)) (olist (a_prometheus a)) ++
  map (fun c => (ic_path c, CInflux c)) (olist (a_influx a)) ++
  map (fun c => (nc_path c, CNsink c)) (olist (a_nsink a)) ++
  map (fun c => (ec_path c, CElastic c)) (olist (a_elastic a)) ++
  map (fun c => (kc_path c, CKafka c)) (a_kafkas a) ++
  map (fun c => (fst c, CProg (snd c))) (a_programmable a) ++
  map (fun c => (fst c, CDelay (snd c))) (a_delay a) ++
  map (fun c => (fst c, CJson (snd c))) (a_json a) ++
  map (fun c => (fst c, CBoundary (snd c))) (a_boundary a) ++
  map (fun c => (fst c, CNsource (snd c))) (a_natives a) ++
  map (fun c => (nt_path c, CInternal c)) [a_internal a] ++
  map (fun c => (fst c, CStatsd (snd c))) (a_statsds a) ++
  map (fun c => (fst c, CGraphite (snd c))) (a_graphites a) ++
  map (fun c => (fst c, CAvro (snd c))) (a_avros a) ++
  map (fun c => (fc_id c, CFile c)) (a_files a).

(** flush_interval() of a sink, in pulses: src/sink/null.rs:33-35,
    src/sink/prometheus.rs:652-654, the others answer their setting *)
Definition flush_pulses (c : comp) : option Z :=
  match c with
  | CNull => Some 1%Z | CPrometheus _ => Some 10%Z
  | CConsole c => Some (cc_flush c) | CWavefront c => Some (wc_flush c) | CInflux c => Some (ic_flush c)
  | CElastic c => Some (ec_flush c) | CNsink c => Some (nc_flush c) | CKafka c => Some (kc_flush c)
  | _ => None
  end.
Definition port_of (c : comp) : option Z :=
  match c with
  | CWavefront c => Some (wc_port c) | CInflux c => Some (ic_port c) | CPrometheus c => Some (pc_port c)
  | CElastic c => Some (ec_port c) | CNsink c => Some (nc_port c)
  | CStatsd c => Some (sd_port c) | CGraphite c | CAvro c | CNsource c => Some (tc_port c)
  | _ => None
  end.
Definition tags_of (c : comp) : option tags :=
  match c with
  | CConsole c => Some (cc_tags c) | CWavefront c => Some (wc_tags c) | CInflux c => Some (ic_tags c)
  | CPrometheus c => Some (pc_tags c) | CElastic c => Some (ec_tags c) | CNsink c => Some (nc_tags c)
  | CJson c => Some (jc_tags c) | CProg c => Some (gc_tags c)
  | _ => None
  end.
Definition forwards_to (c : comp) : list string :=
  match c with
  | CDelay c => dc_forwards c | CBoundary c => bc_forwards c | CJson c => jc_forwards c | CProg c => gc_forwards c
  | CFile c => fc_forwards c | CStatsd c => sd_forwards c | CGraphite c | CAvro c | CNsource c => tc_forwards c
  | CInternal c => nt_forwards c
  | _ => []
  end.

(** the value the file gives the global tag [k]: a text, or the variable named by
    a table { environment = true, value = "VARIABLE" } *)
Definition tag_value `{H : Host} (t : toml) (k v : string) : Prop :=
  at2 t "tags" k = Some (TStr v) \/
  exists l n, at2 t "tags" k = Some (TTab l) /\ alookup seqb "environment" l = Some (TBool true) /\
    alookup seqb "value" l = Some (TStr n) /\ env_var n = Some v.

(** two files that differ at most in [sec.kind] *)
Definition same_but (sec kind : string) (t t' : toml) : Prop :=
  (forall k, k <> sec -> tget t' k = tget t k) /\ (forall k, k <> kind -> at2 t' sec k = at2 t sec k).

(** the section [sec.kind] is, or holds, that of [id] *)
Definition belongs (sec kind id : string) : Prop := id = (sec ++ "." ++ kind)%string \/ exists n, id = (sec ++ "." ++ kind ++ "." ++ n)%string.
(** no two file sources have the same path *)
Definition paths_differ (t : toml) : Prop := forall n n' s s' p,
  named t "sources" "files" n s -> named t "sources" "files" n' s' -> tget s "path" = Some (TStr p) -> tget s' "path" = Some (TStr p) -> n = n'.

(** [g] is what main wires of the settings [a], in some order of the hash maps *)
Definition wires (a : args) (g : config) : Prop :=
  Permutation (g_sinks g) (g_sinks (main_config a)) /\ Permutation (g_filters g) (g_filters (main_config a)) /\
  Permutation (g_natives g) (g_natives (main_config a)) /\ Permutation (g_sources g) (g_sources (main_config a)).

(** the options that the section of a sink may have *)
Definition sink_options (kind : string) : list string :=
  if seqb kind "console" then ["bin_width"; "flush_interval"]
  else if seqb kind "wavefront" then ["padding"; "percentiles"; "port"; "age_threshold"; "host"; "bin_width"; "flush_interval"]
  else if seqb kind "influxdb" then ["port"; "secure"; "host"; "db"; "flush_interval"]
  else if seqb kind "prometheus" then ["age_threshold"; "port"; "host"; "capacity_in_seconds"]
  else if seqb kind "elasticsearch" then ["delivery_attempt_limit"; "port"; "host"; "index-prefix"; "secure"; "index_type"; "flush_interval"]
  else if seqb kind "native" then ["port"; "host"; "flush_interval"]
  else [].
(** the keys at the top of the file, and the kinds of components *)
Definition top_keys : list string :=
  ["max-hopper-queue-bytes"; "max-hopper-queue-files"; "max-hopper-in-memory-bytes"; "data-directory"; "scripts-directory"; "flush-interval";
   "tags"; "filters"; "sinks"; "sources"].
Definition kinds (sec : string) : list string :=
  if seqb sec "sinks" then single_sinks ++ ["kafka"] else if seqb sec "filters" then filter_kinds else source_kinds ++ ["files"; "internal"].
(** filters and sources send on, sinks do not *)
Definition is_sender (c : comp) : bool :=
  match c with
  | CNull | CConsole _ | CWavefront _ | CInflux _ | CPrometheus _ | CElastic _ | CNsink _ | CKafka _ => false
  | _ => true
  end.
