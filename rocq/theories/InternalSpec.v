(** * Specification of self-telemetry. *)
From Verif Require Import Base TelemetryModel InternalModel.
Open Scope string_scope. Open Scope list_scope. Open Scope nat_scope.

Section Spec.
Context `{Q : QLib}.
(** what was added to a counter in an interleaving, and whether nothing was stored to it *)
Definition added (i : nat) (l : list iact) : N :=
  fold_right (fun a n => match a with AAdd j m => if j =? i then (m + n)%N else n | _ => n end) 0%N l.
Definition only_added (i : nat) (l : list iact) : Prop := forall n, ~ In (AStore i n) l.
Definition total (l : list N) : N := fold_right N.add 0%N l.

(** the points among the events sent *)
Definition points (out : list event) : list telemetry := flat_map (fun e => match e with ETelemetry t => [t] | _ => [] end) out.
Definition named (n : string) (l : list telemetry) : list telemetry := filter (fun t => String.eqb (t_name t) n) l.
(** the point a count is reported as *)
Definition count_point (name : string) (kind : method) (v : N * Z) : telemetry :=
  mkTelemetry name (match kind with MSet => VSet (fofZ (Z.of_N (fst v))) | _ => VSum (fofZ (Z.of_N (fst v))) end) false None (snd v) None None.

(** the points pushed by the file source, and the points sent that are not counters *)
Definition pushed (l : list iact) : list telemetry :=
  flat_map (fun a => match a with
                     | AReport now r x path => [mkTelemetry (report_name r) (VSum x) false (Some [("file_path", path)]) now None None]
                     | _ => [] end) l.
Definition counter_name (n : string) : bool := existsb (fun c => String.eqb (fst c) n) counters.
Definition uncounted (l : list telemetry) : list telemetry := filter (fun t => negb (counter_name (t_name t))) l.
End Spec.
