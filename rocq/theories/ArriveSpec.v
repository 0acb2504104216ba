(** * What happens in a sink to what the process delivers to it: InfluxDB, elasticsearch, wavefront. *)
From Verif Require Import Base TelemetryModel TelemetrySpec BucketsModel BucketsSpec FlowModel FlowSpec ConsoleSpec ShownSpec ElasticModel ElasticSpec WavefrontModel WavefrontSpec InfluxModel InfluxSpec.
Open Scope string_scope. Open Scope list_scope. Open Scope nat_scope.

Section Spec.
Context {Q : QLib}.
(** the event is delivered, and the sink is flushed some time after *)
Definition flushed_after (e : event) (cs : list sink_call) : Prop :=
  exists c1 c2 f c3, cs = c1 ++ CDeliver e :: c2 ++ f :: c3 /\ flushing f = true.
(** the points among some events *)
Definition points_in (es : list event) : list telemetry := flat_map (fun e => match e with ETelemetry t => [t] | _ => [] end) es.

(** What each sink does for a call of its loop (src/sink/mod.rs:112-191): a default deliver drops what the sink does not take
    (mod.rs:234-253); timer, closed valve and shutdown all flush (influxdb.rs:281-283, elasticsearch.rs:337-339, wavefront.rs:639-641). *)
Definition influx_does (c : sink_call) (os : list iop) : Prop :=
  match c with
  | CDeliver (ETelemetry t) => os = [IDeliver t]
  | CDeliver _ => os = []
  | _ => exists ans, os = [IFlush ans]
  end.
Definition elastic_does (c : sink_call) (os : list es_op) : Prop :=
  match c with
  | CDeliver (ELog l) => exists u, os = [ESDeliver u l]
  | CDeliver _ => os = []
  | _ => exists a, os = [ESFlush a]
  end.
Definition wave_does (c : sink_call) (os : list wop) : Prop :=
  match c with
  | CDeliver (ETelemetry t) => exists now, os = [WDeliver now t]
  | CDeliver _ => os = []
  | _ => exists fuel now now' ans, os = [WFlush fuel now now' ans]
  end.
Definition does_all {O} (does : sink_call -> list O -> Prop) (cs : list sink_call) (os : list O) : Prop :=
  exists parts, Forall2 does cs parts /\ os = List.concat parts.

(** ** InfluxDB *)
(** the answers of each flush *)
Definition influx_answers (os : list iop) : list (list ianswer) := flat_map (fun o => match o with IFlush a => [a] | _ => [] end) os.
(** one flush POSTs the lines of the points [b], again and again until the server takes them *)
Definition posted show_f show_n (tags : tagmap) (b : list telemetry) (ps : list (string * N)) (ans : list ianswer) : Prop :=
  Forall (fun p => fst p = influx_text show_f show_n tags i_time b) ps /\
  exists before code after, ans = before ++ IStatus code :: after /\ (200 <= code < 300)%N /\
    Forall (fun a => match a with IStatus c => ~ (200 <= c < 300)%N | IError => True end) before /\ List.length ps = Datatypes.S (List.length before).
Inductive all3 {A B C} (P : A -> B -> C -> Prop) : list A -> list B -> list C -> Prop :=
| all3_nil : all3 P [] [] []
| all3_cons a b c la lb lc : P a b c -> all3 P la lb lc -> all3 P (a :: la) (b :: lb) (c :: lc).
(** A sink running the calls [cs] to their end, whatever the server answers, has given the server at least the points [ts],
    in order, each in one accepted request, before any others. *)
Definition influx_gives show_f show_n (tags : tagmap) (cs : list sink_call) (ts : list telemetry) : Prop :=
  forall os c s c' posts, does_all influx_does cs os -> i_run show_f show_n tags os influx_init c = Some (s, c', posts) ->
  exists batches more, all3 (posted show_f show_n tags) batches posts (influx_answers os) /\ List.concat batches = ts ++ more.

(** ** elasticsearch *)
(** A sink running the calls [cs] without panic has asked the server to store the line. *)
Definition elastic_offers render uuid_str (limit : N) (prefix : option string) (ty : string) (tags : tagmap) (cs : list sink_call) (l : logline) : Prop :=
  forall os e log, does_all elastic_does cs os -> es_run render uuid_str (es_init limit prefix ty tags) os = Some (e, log) ->
  exists u req ans a day full, In (u, l) (es_deliveries os) /\ In (req, ans) log /\ In a req /\
    a_id a = u /\ a_type a = ty /\ render (l_time l) = Some (day, full) /\
    a_index a = match prefix with Some p => (p ++ "-" ++ day)%string | None => day end /\
    forall k, alookup seqb k (a_doc a) = es_doc_value tags (uuid_str u) l full k.

(** ** wavefront *)
Definition wave_points (os : list wop) : list telemetry := flat_map (fun o => match o with WDeliver _ t => [t] | _ => [] end) os.
(** A sink running the calls [cs] to their end has written the point [t]: in one flush, as part of the point [p] of its series
    and time bin; with no points that persist [p] is the in-order merge of the points of that series and bin delivered since
    the flush before, [t] among them. *)
Definition wave_writes hkind hfun show_f show_n show_z (c : wcfg) (cs : list sink_call) (t : telemetry) : Prop :=
  forall os stream w logs, does_all wave_does cs os -> no_collision hfun (wave_points os) ->
  w_run hkind hfun show_f show_n show_z c os (wave_init c stream) = Some (w, logs) ->
  exists log now pads points p, In log logs /\ WavefrontSpec.flushed (texts (map (point_text show_f show_n show_z (wc_tags c) (wc_percentiles c)) points)) log /\
    Forall2 (shown now) pads points /\ In p (originals pads) /\ series_key p = series_key t /\ pbin (wc_span c) p = pbin (wc_span c) t /\
    (Forall (fun t => t_persist t = false) (wave_points os) ->
      exists before after, merged (before ++ t :: after) = Some p /\ Forall (fun q => series_key q = series_key t /\ pbin (wc_span c) q = pbin (wc_span c) t) (before ++ after)).
End Spec.
