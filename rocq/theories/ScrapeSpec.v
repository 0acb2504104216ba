(** * What the claims about scrapes speak of *)
From Verif Require Import Base TelemetryModel FiltersModel WavefrontModel PrometheusModel PrometheusSpec ScrapeModel.
Open Scope string_scope. Open Scope list_scope. Open Scope nat_scope.
Section Spec.
Context `{Q : QLib}.
(** the updates of the aggregation among what happened *)
Definition ops_of (l : list happening) : list pop := flat_map (fun e => match e with EvApplied o => [o] | _ => [] end) l.
(** the requests taken up *)
Definition taken (l : list happening) : list nat := flat_map (fun e => match e with EvTaken r => [r] | _ => [] end) l.
(** the requests done with, however *)
Definition closed (l : list happening) : list nat := flat_map (fun e => match e with EvAnswer r _ => [r] | _ => [] end) l.
(** responses that went out, and that failed *)
Definition responses (sent : bool) (l : list happening) : nat :=
  List.length (flat_map (fun e => match e with EvAnswer _ (A200 _ _ b) => if Bool.eqb b sent then [tt] else [] | _ => [] end) l).
Definition full_answers (l : list happening) : nat :=
  List.length (flat_map (fun e => match e with EvAnswer _ (A200 _ _ _) => [tt] | _ => [] end) l).
(** what the sink is told by a schedule *)
Definition told (ms : list smove) : list sop := flat_map (fun m => match m with MTold o => [o] | _ => [] end) ms.
(** a point is not older, or further ahead, than the threshold (age_threshold in the configuration) *)
Definition young (age : option N) (o : sop) : bool :=
  match o, age with SDeliver now t, Some n => (Z.abs (t_timestamp t - now) <=? Z.of_N n)%Z | _, _ => true end.
(** times and threshold of a sort an i64 can tell *)
Definition tellable (age : option N) (o : sop) : Prop :=
  match o, age with SDeliver now t, Some n => (Z.abs (t_timestamp t - now) < 2 ^ 63 /\ Z.of_N n < 2 ^ 63)%Z | _, _ => True end.
(** the requests that come in *)
Definition arrivals (ms : list smove) : list nat := flat_map (fun m => match m with MArrives r => [r] | _ => [] end) ms.
(** a move of the server's thread *)
Definition of_server (m : smove) : bool := match m with MPoll _ | MRecv _ | MTry | MWrite | MRespond _ => true | _ => false end.
Definition server_fails (m : smove) : bool := match m with MPoll b | MRecv b => b | _ => false end.
Definition server_over (s : scrape) : Prop := sc_server s = VEnd \/ sc_server s = VPanic.
(** Nothing is taken up twice between being taken up and answered. *)
Definition no_taken (l : list happening) : Prop := taken l = [].
(** a summary that has a sample *)
Definition sampled (t : telemetry) : Prop := match t_value t with VQuant c _ => (0 < c_count c)%N | _ => True end.
End Spec.
