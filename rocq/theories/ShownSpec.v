(** * What the console shows of what the process delivers to it. *)
From Verif Require Import Base TelemetryModel TelemetrySpec BucketsModel BucketsSpec ConsoleModel ConsoleSpec FlowModel FlowSpec.
Open Scope string_scope. Open Scope list_scope. Open Scope nat_scope.

Section Spec.
Context {Q : QLib} {S : Show}.
(** what the console does for a call of the sink's loop (src/sink/mod.rs:112-191): lines and points are delivered, raw
    bytes are dropped by the default deliver_raw (mod.rs:244-253), flush and shutdown print; the dates and the clock are any *)
Definition console_does (c : sink_call) (os : list cop) : Prop :=
  match c with
  | CDeliver (ETelemetry t) => os = [CPoint t]
  | CDeliver (ELog l) => os = [CLine l]
  | CDeliver _ => os = []
  | CFlushTimer _ | CFlushValve | CShutdown => exists d1 d2 now, os = [CFlush d1 d2 now]
  end.
Definition console_ops (cs : list sink_call) (os : list cop) : Prop :=
  exists parts, Forall2 console_does cs parts /\ os = List.concat parts.
(** the lines among some events *)
Definition loglines (es : list event) : list logline := flat_map (fun e => match e with ELog l => [l] | _ => [] end) es.
(** The reports [outs] show the lines [ls], each once and in order: [secs] are their sections of lines. *)
Definition shows_all (tags : tagmap) (ls : list logline) (outs : list (list string)) : Prop :=
  exists secs, Forall2 (fun out sec => exists d1 d2 ts, out = printed d1 d2 sec ts) outs secs /\
    Forall2 (fun l row => exists tg, filled l tags tg /\ shows_line l tg row) ls (List.concat secs).
(** Whatever dates and clock, if every time can be written, the console running the calls [cs] lives and has shown at
    least the lines [ls], and those before any others. *)
Definition console_shows (hfun : list string -> N) (w : Z) (tags : tagmap) (cs : list sink_call) (ls : list logline) : Prop :=
  forall os, console_ops cs os -> printable os -> Forall (fun l => otm_ok (l_tags l)) (lines_of os) ->
  exists outs c more, c_run hfun (c_init w tags) os = (outs, Some c) /\ shows_all tags (ls ++ more) outs.
(** a call by which the sink flushes *)
Definition flushing (c : sink_call) : bool := match c with CDeliver _ => false | _ => true end.
End Spec.
