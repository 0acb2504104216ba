(** * Specification of the prometheus sink. *)
From Verif Require Import Base TelemetryModel BucketsSpec WavefrontModel PrometheusModel.
Open Scope string_scope. Open Scope list_scope. Open Scope nat_scope.

Section Spec.
Context `{Q : QLib}.

(** the points inserted by a history *)
Definition inserted (ops : list pop) : list telemetry := flat_map (fun o => match o with PInsert t => [t] | PPurge _ => [] end) ops.
(** those of one name and kind *)
Definition of_metric (n : string) (k : method) (l : list telemetry) : list telemetry :=
  filter (fun t => andb (seqb (t_name t) n) (meth_eqb (t_kind t) k)) l.
Definition earlier (a b : telemetry) : Prop := (t_timestamp a < t_timestamp b)%Z.
Definition at_second (ts : Z) (t : telemetry) : bool := Z.eqb (t_timestamp t) ts.

(** [samples] is the window of the newest [cap] seconds of [history]: one point per second, merged in
    order of arrival, and what is missing is older than everything in a full window *)
Record window_of (cap : N) (history samples : list telemetry) : Prop := mkWindow {
  wo_sorted : StronglySorted earlier samples;
  wo_cap : (N.of_nat (List.length samples) <= cap)%N;
  wo_merged : forall p, In p samples -> merged (filter (at_second (t_timestamp p)) history) = Some p;
  wo_cover : forall t, In t history ->
    (exists p, In p samples /\ t_timestamp p = t_timestamp t) \/
    (N.of_nat (List.length samples) = cap /\ Forall (earlier t) samples);
}.

(** adding the values one by one stays below the greatest float *)
Fixpoint no_overflow (s : f64) (vs : list f64) : Prop :=
  match vs with [] => True | v :: r => fleb (fsub f64_max v) s = false /\ no_overflow (fadd s v) r end.
Definition float_sum (vs : list f64) : f64 := match vs with [] => fzero | v :: r => fold_left fadd r v end.

(** kinds of exposition *)
Definition type_of (k : method) : string :=
  match k with MSum => "counter" | MSet => "gauge" | MHistogram => "histogram" | MSummarize => "summary" end.
Definition line_name (l : pline) : string := match l with PType n _ => n | PSample n _ _ _ => n end.
Definition is_type (l : pline) : bool := match l with PType _ _ => true | _ => false end.
(** a TYPE line followed by samples of the same name, up to the suffix of totals *)
Definition block (name tname : string) (ls : list pline) : Prop :=
  exists samples, ls = PType name tname :: samples /\
    Forall (fun l => is_type l = false /\ (line_name l = name \/ line_name l = (name ++ "_sum")%string \/ line_name l = (name ++ "_count")%string)) samples.

(** how many samples the windows hold *)
Definition held_samples (a : aggr) : nat :=
  list_sum (map (fun kv => match snd kv with AWin _ _ _ l => List.length l | APerp _ => 0 end) (pa_data a)).
(** what is written for a point: its TYPE line and the samples of its kind.  A summary shows
    the least and greatest value and these quantiles, then its sum and count. *)
Definition shown_quantiles : list f64 :=
  [fofZ 0; fofZ 1; fratio 1 4; fratio 1 2; fratio 3 4; fratio 9 10; fratio 95 100; fratio 99 100; fratio 999 1000].
Definition shown_totals (name : string) (tags : tagmap) (t : telemetry) (sum : f64) : list pline :=
  [PSample (name ++ "_sum")%string None tags (QF sum); PSample (name ++ "_count")%string None tags (QF (fofZ (Z.of_N (t_count t))))].
Inductive exposed (show_f : f64 -> string) (default : tagmap) (t : telemetry) : list pline -> Prop :=
| ex_sum v : t_kind t = MSum -> t_sum t = Some v ->
    exposed show_f default t [PType (sanitize (t_name t)) "counter"; PSample (sanitize (t_name t)) None (tag_iter (t_tags t) default) (QF v)]
| ex_set v : t_kind t = MSet -> t_set t = Some v ->
    exposed show_f default t [PType (sanitize (t_name t)) "gauge"; PSample (sanitize (t_name t)) None (tag_iter (t_tags t) default) (QF v)]
| ex_hist bins lines sum : t_kind t = MHistogram -> t_bins t = Some bins ->
    (t_samples_sum t = Some sum \/ t_samples_sum t = None /\ sum = fofZ 0) ->
    lines = map (fun i => PSample (sanitize (t_name t))
       (Some ("le", match nth i (map fst bins) BPosInf with BFinite x => show_f x | BPosInf => "+Inf" end))
       (tag_iter (t_tags t) default) (QN (sumN (map snd (firstn (S i) bins))))) (seq 0 (List.length bins)) ->
    exposed show_f default t (PType (sanitize (t_name t)) "histogram" :: lines ++
       shown_totals (sanitize (t_name t)) (tag_iter (t_tags t) default) t sum)
| ex_summary vs sum : t_kind t = MSummarize -> t_samples_sum t = Some sum ->
    Forall2 (fun q v => t_query t q = Some v) shown_quantiles vs ->
    exposed show_f default t (PType (sanitize (t_name t)) "summary" ::
       map (fun qv => PSample (sanitize (t_name t)) (Some ("quantile", show_f (fst qv))) (tag_iter (t_tags t) default) (QF (snd qv))) (combine shown_quantiles vs) ++
       shown_totals (sanitize (t_name t)) (tag_iter (t_tags t) default) t sum).

Fixpoint chars (s : string) : list ascii := match s with EmptyString => [] | String c r => c :: chars r end.
(** letters, digits, colon and underscore *)
Definition name_char (c : ascii) : Prop :=
  let n := nat_of_ascii c in
  (97 <= n <= 122 \/ 65 <= n <= 90 \/ 48 <= n <= 57 \/ c = ":"%char \/ c = "_"%char).
End Spec.
