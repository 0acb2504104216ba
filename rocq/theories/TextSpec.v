(** * From the text of a client to the text given to a server *)
From Verif Require Import Base TelemetryModel DatagramModel FlowModel ElasticModel InfluxModel WavefrontModel InfluxSpec ArriveSpec.
Open Scope string_scope. Open Scope list_scope. Open Scope nat_scope.

Section Spec.
Context {Q : QLib}.
(** the text has this line, which ends itself, as a line of its own *)
Definition has_line (body line : string) : Prop := exists a b, body = (a ++ line ++ b)%string /\ (a = "" \/ exists a', a = (a' ++ nl)%string).
(** An InfluxDB sink running the calls [cs] to their end, whatever the server answers, has made a request with this line that the server took:
    the request of flush [k] answered by [code]. *)
Definition influx_takes show_f show_n (tags : tagmap) (cs : list sink_call) (line : string) : Prop :=
  forall os c s c' posts, does_all influx_does cs os -> i_run show_f show_n tags os influx_init c = Some (s, c', posts) ->
  exists k ps before code after body pause, nth_error posts k = Some ps /\ nth_error (influx_answers os) k = Some (before ++ IStatus code :: after) /\
    (200 <= code < 300)%N /\ nth_error ps (List.length before) = Some (body, pause) /\ has_line body line.
(** An elasticsearch sink running the calls [cs] without panic has asked the server to store a document with this path and payload. *)
Definition elastic_asks render uuid_str (limit : N) (prefix : option string) (ty : string) (tags : tagmap) (cs : list sink_call) (path payload : string) : Prop :=
  forall os e log, does_all elastic_does cs os -> es_run render uuid_str (es_init limit prefix ty tags) os = Some (e, log) ->
  exists req ans a, In (req, ans) log /\ In a req /\ alookup seqb "path" (a_doc a) = Some path /\ alookup seqb "payload" (a_doc a) = Some payload.
(** what the file source sends for the lines it read: LogLine::new (src/metric/logline.rs:31-43) in src/source/file/file_server.rs:111-114, sent in 139-141;
    [time] is the clock at that moment *)
Definition file_events (es : list event) (ls : list (string * list N)) : Prop :=
  Forall2 (fun e pl => exists time, e = ELog (mkLog time (fst pl) (text (snd pl)) [] None)) es ls.
End Spec.
