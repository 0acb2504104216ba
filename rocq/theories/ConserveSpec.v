(** * What the claims about counts on their way through the wavefront sink speak of. *)
From Verif Require Import Base TelemetryModel WavefrontModel CountSpec.
Open Scope string_scope. Open Scope list_scope. Open Scope Z_scope.

Section Spec.
Context `{Q : QLib}.
(** the points of a series *)
Definition of_series (s : list string) (t : telemetry) : bool := if list_eq_dec string_dec (series_key t) s then true else false.
(** a point that is a sum, of a whole number *)
Definition counts_as (t : telemetry) (z : Z) : Prop := t_value t = VSum (fofZ z).
(** [l] is of whole sums that make [z] in all and, signs left aside, [room] at most *)
Definition adds_up (l : list telemetry) (z room : Z) : Prop :=
  exists zs, Forall2 counts_as l zs /\ CountSpec.total zs = z /\ CountSpec.total (map Z.abs zs) <= room.
End Spec.
