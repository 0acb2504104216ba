(** * Abstract aggregation: a partial map from (series, bin) to a point. *)
From Verif Require Import Base TelemetryModel BucketsModel.

Section Spec.
Context `{Q : QLib}.
Variable w : Z. (** bin width *)

Definition pbin (t : telemetry) : Z := tbin w (t_timestamp t).

Definition amap := list string -> Z -> option telemetry.

(** a persisted point opening a new bin starts from the preceding bin's value *)
Definition carried (prev t : telemetry) : telemetry :=
  mkTelemetry (t_name prev) (value_add (t_value prev) (t_value t)) (t_persist t)
              (t_tags prev) (t_timestamp t) None None.

(** [M'] is [M] with [p] stored at ([s], [k]) *)
Definition stored (M : amap) (s : list string) (k : Z) (p : telemetry) (M' : amap) : Prop :=
  M' s k = Some p /\ forall s' k', (s' <> s \/ k' <> k) -> M' s' k' = M s' k'.

Inductive add_spec (M : amap) (t : telemetry) (M' : amap) : Prop :=
| add_hit p : M (series_key t) (pbin t) = Some p ->
    stored M (series_key t) (pbin t) (t_add p t) M' -> add_spec M t M'
| add_carry k p : M (series_key t) (pbin t) = None -> t_persist t = true ->
    (k < pbin t)%Z -> M (series_key t) k = Some p ->
    (forall j, (k < j < pbin t)%Z -> M (series_key t) j = None) ->
    stored M (series_key t) (pbin t) (carried p t) M' -> add_spec M t M'
| add_fresh : M (series_key t) (pbin t) = None ->
    (t_persist t = false \/ forall j, (j < pbin t)%Z -> M (series_key t) j = None) ->
    stored M (series_key t) (pbin t) t M' -> add_spec M t M'.

(** [p] is the newest point of series [s] *)
Definition newest (M : amap) (s : list string) (k : Z) (p : telemetry) : Prop :=
  M s k = Some p /\ forall j q, M s j = Some q -> (j <= k)%Z.

Definition reset_spec (M : amap) (now : Z) (M' : amap) : Prop :=
  forall s k p', M' s k = Some p' <->
    k = tbin w now /\ exists k0 p, newest M s k0 p /\ t_persist p = true /\ p' = t_set_timestamp now p.

Definition op_spec (M : amap) (o : bop) (M' : amap) : Prop :=
  match o with
  | BAdd t => add_spec M t M'
  | BReset now => reset_spec M now M'
  end.
Inductive run_spec : amap -> list bop -> amap -> Prop :=
| run_nil M : run_spec M [] M
| run_cons M o M1 os M2 : op_spec M o M1 -> run_spec M1 os M2 -> run_spec M (o :: os) M2.

(** the buffer's points, read as a map *)
Definition represents (l : list telemetry) (M : amap) : Prop :=
  forall s k p, M s k = Some p <-> In p l /\ series_key p = s /\ pbin p = k.

Definition empty_map : amap := fun _ _ => None.

(** the points added by a history *)
Definition adds (os : list bop) : list telemetry :=
  flat_map (fun o => match o with BAdd t => [t] | BReset _ => [] end) os.

(** [t] falls in series [s] and bin [k] *)
Definition here (s : list string) (k : Z) (t : telemetry) : bool :=
  andb (if list_eq_dec string_dec (series_key t) s then true else false) (Z.eqb (pbin t) k).
(** the in-order merge of a non-empty list *)
Definition merged (l : list telemetry) : option telemetry :=
  match l with [] => None | t0 :: r => Some (fold_left t_add r t0) end.

(** hashes do not collide on the series that occur *)
Definition no_collision (hfun : list string -> N) (ts : list telemetry) : Prop :=
  forall a b, In a ts -> In b ts ->
    hfun (series_key a) = hfun (series_key b) -> series_key a = series_key b.
End Spec.
