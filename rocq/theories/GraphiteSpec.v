(** * Specification of a graphite connection. *)
From Verif Require Import Base TelemetryModel ParseModel GraphiteModel Utf8.
Open Scope list_scope. Open Scope nat_scope.

(** a line: no line feed but at its end *)
Definition gline (l : list N) : Prop := exists t, l = t ++ [10%N] /\ ~ In 10%N t.
(** the bytes of an arrival *)
Definition arrived (w : gwake) : list N := match w with GData bs | GClose bs => bs | GSystem => [] end.

Section Spec.
Context `{Q : QLib}.
Variable parse : list N -> list telemetry -> pout.
(** what a connection should have done when the lines [ls] have been received and [rest] is
    the part of the next one that is there: each line parsed once, in order *)
Definition handled (ls : list (list N)) (rest : list N) (s : gstate) : Prop :=
  exists sent kept g b, source_loop parse ls [] = Some (sent, kept, g, b) /\
    g_sent s = sent /\ g_res s = kept /\ g_good s = g /\ g_telem s = g /\ g_bad s = b /\ g_line s = rest /\ g_avail s = [] /\ g_phase s = GPolling.
End Spec.
