(** * What the randomized tests of src/buckets.rs (386-440, 795-1080) check, in closed form. *)
From Verif Require Import Base TelemetryModel BucketsModel BucketsSpec.
Open Scope list_scope.

Section Spec.
Context `{Q : QLib}.
Variable w : Z.

(** series and bin of a point *)
Definition cell (t : telemetry) : list string * Z := (series_key t, pbin w t).
Definition cell_dec (a b : list string * Z) : {a = b} + {a <> b}.
Proof. decide equality; [apply Z.eq_dec|apply list_eq_dec, string_dec]. Defined.
(** the cells of some points, each once *)
Definition cells (ts : list telemetry) : list (list string * Z) := nodup cell_dec (map cell ts).

(** the last of a list *)
Definition final {A} (l : list A) : option A := match rev l with [] => None | x :: _ => Some x end.
(** [k] is the newest bin of series [s] *)
Definition newest_bin (ts : list telemetry) (s : list string) (k : Z) : Prop :=
  (exists t, In t ts /\ cell t = (s, k)) /\ forall t, In t ts -> series_key t = s -> (pbin w t <= k)%Z.
(** of the points of its newest bin, the one added last is to persist *)
Definition survives (ts : list telemetry) (s : list string) : Prop :=
  exists k t, newest_bin ts s k /\ final (filter (here w s k) ts) = Some t /\ t_persist t = true.

(** the points of each series come in the order of their bins *)
Definition in_order (ts : list telemetry) : Prop :=
  forall l1 a l2 b l3, ts = l1 ++ a :: l2 ++ b :: l3 -> series_key a = series_key b -> (pbin w a <= pbin w b)%Z.
(** the points of series [s] up to bin [k] *)
Definition up_to (s : list string) (k : Z) (t : telemetry) : bool :=
  andb (if list_eq_dec string_dec (series_key t) s then true else false) (Z.leb (pbin w t) k).
(** values merged in order *)
Definition total (ts : list telemetry) : option value :=
  match ts with [] => None | t :: r => Some (fold_left value_add (map t_value r) (t_value t)) end.
End Spec.

(** resets in a row, each at its time *)
Definition resets `{Q : QLib} (nows : list Z) (b : buckets) : buckets := fold_left (fun b now => b_reset now b) nows b.
