(** * What the properties of points and tags mean, independently of the code. *)
From Verif Require Import Base TelemetryModel.

Section Spec.
Context `{Q : QLib}.

(** A builder describes a valid point: a name, exactly one value, an error bound
    only for SUMMARIZE and then below one, histogram bounds only for HISTOGRAM. *)
Definition kind_of_builder (s : soft) : method :=
  match s_kind s with Some k => k | None => MSet end.
Definition valid_builder (s : soft) : Prop :=
  s_name s <> None /\
  (s_initial s <> None <-> s_thawed s = None) /\
  (forall e, s_error s = Some e -> kind_of_builder s = MSummarize /\ fleb fone e = false) /\
  (s_bounds s <> None -> kind_of_builder s = MHistogram).

(** the histogram library refuses the bounds of this builder *)
Definition bounds_refused (s : soft) : Prop :=
  kind_of_builder s = MHistogram /\ s_thawed s = None /\
  h_new (match s_bounds s with Some b => b | None => [fofZ 1; fofZ 10; fofZ 100; fofZ 1000] end) = None.

(** a point without the two override fields, which [thaw] forgets *)
Definition plain (t : telemetry) : telemetry :=
  mkTelemetry (t_name t) (t_value t) (t_persist t) (t_tags t) (t_timestamp t) None None.

Definition sampling (v : value) : Prop := value_kind v = MSummarize \/ value_kind v = MHistogram.

End Spec.

(** [k] has value [v] in the layering of a point's own tags over default tags. *)
Definition layered (own : option tagmap) (d : tagmap) (k v : string) : Prop :=
  match own with
  | Some o => In (k, v) o \/ (~ In k (map fst o) /\ In (k, v) d)
  | None => In (k, v) d
  end.

(** lookup in optional tags *)
Definition otag (k : string) (own : option tagmap) : option string :=
  match own with Some m => tm_get k m | None => None end.

(** the half-open interval of [w] seconds containing [ts] *)
Definition same_interval (w a b : Z) : Prop :=
  exists k, (k * w <= a < (k + 1) * w /\ k * w <= b < (k + 1) * w)%Z.
