(** * The settings of every component: the key of the file each is under, and what it is when the key is missing. *)
From Verif Require Import Base FloatFacts TopologyModel TopologySpec ConfigModel ConfigSpec.
Open Scope string_scope. Open Scope list_scope. Open Scope nat_scope.

(** a setting: its key, the value the component uses, the value it has when the key is missing (None: it cannot be missing) *)
Definition setting (A : Type) : Type := string * A * option A.
(** the texts: src/sink/wavefront.rs:128-138, src/sink/influxdb.rs:64-75, src/sink/prometheus.rs:82-93,
    src/sink/elasticsearch.rs:88-102, src/sink/native.rs:52-62, src/config.rs:732-810 and 823-1104 *)
Definition texts (c : comp) : list (setting string) :=
  match c with
  | CWavefront c => [("host", wc_host c, Some "localhost")]
  | CInflux c => [("host", ic_host c, Some "localhost"); ("db", ic_db c, Some "cernan")]
  | CPrometheus c => [("host", pc_host c, Some "localhost")]
  | CElastic c => [("host", ec_host c, Some "127.0.0.1"); ("index_type", ec_type c, Some "payload")]
  | CNsink c => [("host", nc_host c, Some "localhost")]
  | CKafka c => [("topic", kc_topic c, None); ("brokers", kc_brokers c, None)]
  | CStatsd c => [("host", sd_host c, Some "localhost")]
  | CGraphite c | CAvro c => [("host", tc_host c, Some "localhost")]
  | CNsource c => [("ip", tc_host c, Some "0.0.0.0")]
  | _ => []
  end.
(** the switches *)
Definition switches (c : comp) : list (setting bool) :=
  match c with
  | CInflux c => [("secure", ic_secure c, Some true)]
  | CElastic c => [("secure", ec_secure c, Some false)]
  | CJson c => [("parse_line", jc_parse_line c, Some false)]
  | _ => []
  end.
(** the numbers, with the first number too large for them; the tolerance of the delay filter and the bin widths are signed *)
Definition numbers (c : comp) : list (setting Z * (Z * Z)) :=
  match c with
  | CConsole c => [(("bin_width", cc_bin_width c, Some 1), (- 2 ^ 63, 2 ^ 63))]%Z
  | CWavefront c => [(("port", wc_port c, Some 2878), (0, 2 ^ 16)); (("bin_width", wc_bin_width c, Some 1), (- 2 ^ 63, 2 ^ 63))]%Z
  | CInflux c => [(("port", ic_port c, Some 8086), (0, 2 ^ 16))]%Z
  | CPrometheus c => [(("port", pc_port c, Some 8086), (0, 2 ^ 16)); (("capacity_in_seconds", pc_capacity c, Some 600), (0, 2 ^ 63))]%Z
  | CElastic c => [(("port", ec_port c, Some 9200), (0, 2 ^ 63)); (("delivery_attempt_limit", ec_limit c, Some 10), (0, 2 ^ 8))]%Z
  | CNsink c => [(("port", nc_port c, Some 1972), (0, 2 ^ 16))]%Z
  | CKafka c => [(("max_message_bytes", kc_max c, Some 10485760), (0, 2 ^ 63))]%Z
  | CDelay c => [(("tolerance", dc_tolerance c, None), (- 2 ^ 63, 2 ^ 63))]%Z
  | CBoundary c => [(("tolerance", bc_tolerance c, None), (0, 2 ^ 63))]%Z
  | CStatsd c => [(("port", sd_port c, Some 8125), (0, 2 ^ 16))]%Z
  | CGraphite c => [(("port", tc_port c, Some 2003), (0, 2 ^ 16))]%Z
  | CAvro c => [(("port", tc_port c, Some 2002), (0, 2 ^ 16))]%Z
  | CNsource c => [(("port", tc_port c, Some 1972), (0, 2 ^ 16))]%Z
  | _ => []
  end.
(** the settings that may be left open *)
Definition open_numbers (c : comp) : list (string * option Z) :=
  match c with
  | CWavefront c => [("age_threshold", wc_age c)]
  | CPrometheus c => [("age_threshold", pc_age c)]
  | _ => []
  end.
Definition open_texts (c : comp) : list (string * option string) :=
  match c with CElastic c => [("index-prefix", ec_prefix c)] | _ => [] end.
(** the switches of [sinks.wavefront.padding] *)
Definition paddings (p : pad_cfg) : list (string * bool) :=
  [("set", pd_set p); ("sum", pd_sum p); ("summarize", pd_summarize p); ("histogram", pd_histogram p)].

(** [x] is what the section gives or leaves of a setting, [mk] writes a value in the file *)
Definition given {A} (mk : A -> toml) (o : option toml) (v : A) (d : option A) : Prop :=
  match o with Some x => x = mk v | None => d = Some v end.

(** the same of a number: one the setting can hold is taken as it is *)
Definition given_num (o : option toml) (v : Z) (d : option Z) (lo hi : Z) : Prop :=
  match o with Some x => exists z, x = TInt z /\ ((lo <= z < hi)%Z -> v = z) | None => d = Some v end.
(** the percentiles the wavefront sink reports when none are named, src/sink/wavefront.rs:112-126 *)
Definition standard_percentiles : list (string * Z) :=
  [("min", 0); ("max", 1000); ("2", 20); ("9", 90); ("25", 250); ("50", 500); ("75", 750); ("90", 900); ("91", 910); ("95", 950); ("98", 980); ("99", 990); ("999", 999)]%Z.
