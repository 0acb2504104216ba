(** * What happens in the prometheus sink to what the process delivers to it. *)
From Verif Require Import Base TelemetryModel TelemetrySpec BucketsModel BucketsSpec FlowModel FlowSpec ShownSpec PrometheusModel PrometheusSpec ScrapeModel ScrapeSpec ArriveSpec.
Open Scope string_scope. Open Scope list_scope. Open Scope nat_scope.

Section Spec.
Context {Q : QLib}.
(** What the sink does for a call of its loop (src/sink/mod.rs:112-191): lines and raw events are dropped (mod.rs:234-253), points go
    to deliver, timer and closed valve to flush, shutdown to shutdown (src/sink/prometheus.rs:656-674). *)
Definition prom_does (c : sink_call) (os : list sop) : Prop :=
  match c with
  | CDeliver (ETelemetry t) => exists now, os = [SDeliver now t]
  | CDeliver _ => os = []
  | CShutdown => exists now, os = [SShutdown now]
  | _ => exists now, os = [SFlush now]
  end.
(** the points the sink takes of those a schedule gives it: all within the age threshold *)
Definition given (age : option N) (ms : list smove) : list telemetry := flat_map (fun o => match o with SDeliver _ t => [t] | _ => [] end) (filter (young age) (told ms)).
(** [t] comes within the age threshold; times and threshold are such as an i64 can tell *)
Definition in_reach (age : option N) (ms ms' : list smove) (t : telemetry) : Prop :=
  Forall (tellable age) (told (ms ++ ms')) /\ forall now, In (SDeliver now t) (told ms) -> young age (SDeliver now t) = true.
(** The first point of the name of [t] that the sink takes is of the kind of [t]: the kind of a metric is that of its first point. *)
Definition kind_fits (age : option N) (ms : list smove) (t : telemetry) : Prop :=
  exists u, find (fun x => seqb (t_name x) (t_name t)) (given age ms) = Some u /\ t_kind u = t_kind t.
(** [ms] ends with every call made carried out, and in [ms'] the request [r] is taken up and answered with [body]. *)
Definition asked_after (cap : N) show_f show_n default age gzip shuffle (ms ms' : list smove) (r : nat) (body : string) : Prop :=
  exists s s' log h sent log', sc_run show_f show_n default age gzip shuffle ms (sc_start cap) = Some s /\ sc_sink s = SIdle /\
    sc_run show_f show_n default age gzip shuffle ms' s = Some s' /\
    sc_log s' = sc_log s ++ log ++ EvAnswer r (A200 h body sent) :: log' /\ In (EvTaken r) log.
(** Whatever the sink's and the server's threads do: once the calls [cs] are carried out, every answer to a later request shows a
    point [p] of the name and kind of [t], merged from all the points of that name and kind taken so far, [t] among them. *)
Definition prom_exposes cap show_f show_n default age gzip shuffle (cs : list sink_call) (t : telemetry) : Prop :=
  forall ms ms' r body, does_all prom_does cs (told ms) -> in_reach age ms ms' t -> kind_fits age ms t -> asked_after cap show_f show_n default age gzip shuffle ms ms' r body ->
  exists ts text p more rest, write_text show_f show_n default ts = Some text /\ (body = match gzip with Some z => z text | None => text end) /\
    In p ts /\ t_name p = t_name t /\ t_kind p = t_kind t /\
    given age ms' = more ++ rest /\ In t (given age ms) /\ merged (of_metric (t_name t) (t_kind t) (given age ms ++ more)) = Some p.
(** Of a summary [t]: the later answers, if they show the summary at all - its samples may have left the window -, show it with the
    number of its points taken so far. *)
Definition prom_counts cap show_f show_n default age gzip shuffle (cs : list sink_call) (t : telemetry) : Prop :=
  forall ms ms' r body, does_all prom_does cs (told ms) -> in_reach age ms ms' t -> kind_fits age ms t -> asked_after cap show_f show_n default age gzip shuffle ms ms' r body ->
  exists ts text more rest, write_text show_f show_n default ts = Some text /\ body = (match gzip with Some z => z text | None => text end) /\ given age ms' = more ++ rest /\ In t (given age ms) /\
    forall p, In p ts -> t_name p = t_name t -> t_kind p = MSummarize /\
      let pts := of_metric (t_name t) MSummarize (given age ms ++ more) in ((N.of_nat (List.length pts) < 2 ^ 64 - 1)%N -> t_count p = N.of_nat (List.length pts)).
End Spec.
