(** * Specification of the running process. *)
From Verif Require Import Base TelemetryModel FlowModel FlowSpec TopologyModel TopologySpec NetworkModel.
Open Scope string_scope. Open Scope list_scope. Open Scope nat_scope.

Section Spec.
Context `{Q : QLib}.
(** ** What can be seen of an execution *)
(** what was put on the queue of [d] *)
Definition arrived (d : string) (tr : list label) : list event :=
  flat_map (fun l => match l with LCopy _ d' e true => if seqb d d' then [e] else [] | _ => [] end) tr.
(** what [u] put there *)
Definition arrived_from (u : who) (d : string) (tr : list label) : list event :=
  flat_map (fun l => match l with LCopy u' d' e true => if weqb u u' && seqb d d' then [e] else [] | _ => [] end) tr.
(** what [u] tried to put there *)
Definition attempts (u : who) (d : string) (tr : list label) : list event :=
  flat_map (fun l => match l with LCopy u' d' e _ => if weqb u u' && seqb d d' then [e] else [] | _ => [] end) tr.
(** what [d] took from its queue *)
Definition polled (d : string) (tr : list label) : list event :=
  flat_map (fun l => match l with LPoll d' e => if seqb d d' then [e] else [] | _ => [] end) tr.
(** what the thread [k] of source [id] had to send *)
Definition emitted (id : string) (k : nat) (tr : list label) : list event :=
  flat_map (fun l => match l with
                     | LEmit id' k' e => if seqb id id' && (k =? k') then [e] else []
                     | LStop id' => if seqb id id' && (k =? 0) then [EShutdown] else []
                     | _ => [] end) tr.
Definition pulses (tr : list label) : nat :=
  List.length (filter (fun l => match l with LPulse => true | _ => false end) tr).
(** nothing was refused by a full queue *)
Definition no_drops (tr : list label) : Prop := forall u d e, ~ In (LCopy u d e false) tr.
(** no shutdown marker was *)
Definition no_marker_dropped (tr : list label) : Prop := forall u d, ~ In (LCopy u d EShutdown false) tr.
(** the copies for [d] that [u] has still to make *)
Definition pending {S} (s : @net Q S) (u : who) (d : string) : list event :=
  flat_map (fun c => if seqb d (fst c) then [snd c] else []) (n_out s u).

(** ** Stopping *)
(** A node that is going to be told to stop: every source; a sink that one such node
    forwards to; a filter one such node forwards to, if all that forward to it are
    such nodes (those it forwards to itself do not matter). *)
Inductive fed (g : config) : string -> Prop :=
| fed_source id : In id (map fst (g_natives g ++ g_sources g)) -> fed g id
| fed_sink id u : In id (g_sinks g) -> upstream g u id -> fed g u -> fed g id
| fed_filter id fw u : In (id, fw) (g_filters g) -> upstream g u id -> fed g u ->
    (forall u, upstream g u id -> ~ In u fw -> fed g u) -> fed g id.
(** [id] is over: a source that has begun to send Shutdown, a stopped filter, a stopped sink *)
Definition over {S} (g : config) (s : @net Q S) (id : string) : Prop :=
  (In id (map fst (g_natives g ++ g_sources g)) -> n_done s id = true) /\
  (In id (map fst (g_filters g)) -> fn_stopped (n_filter s id) = true) /\
  (In id (g_sinks g) -> sr_stopped (n_sink s id) = true).
(** nothing but the timer can go on *)
Definition at_rest {S} (proc : string -> S -> event -> S * list event * option event) fint (t : started) (s : net) : Prop :=
  forall l s', nstep proc fint t s l s' -> l = LPulse.
(** steps that neither read new input nor drop anything nor wait for the timer *)
Definition calm (l : @label Q) : Prop :=
  match l with LEmit _ _ _ | LPulse | LCopy _ _ _ false => False | _ => True end.

(** ** Orderly shutdown *)
(** the threads of [id] *)
Definition thread_of (id : string) (w : who) : Prop :=
  match w with Src i _ => i = id | Fil i => i = id | Tim => False end.
(** nothing has two upstreams *)
Definition single_upstreams (g : config) : Prop := forall u u' v, upstream g u v -> upstream g u' v -> u = u'.
(** a filter that, started in [st], makes no shutdown markers of its own *)
Definition quiet_filter (F : filt) (st : f_state F) : Prop :=
  exists good : f_state F -> Prop, good st /\ forall st e, good st -> is_shutdown e = false ->
    good (fst (fst (f_process F st e))) /\ shutdowns (snd (fst (f_process F st e))) = 0 /\
    (forall fe, snd (f_process F st e) = Some fe -> is_shutdown fe = false).
Definition quiet {S} (proc : string -> S -> event -> S * list event * option event) (st0 : string -> S) : Prop :=
  forall id, quiet_filter (mkFilt S (proc id)) (st0 id).
(** the filter or sink [d] has stopped *)
Definition halted {S} (g : config) (s : @net Q S) (d : string) : Prop :=
  (In d (map fst (g_filters g)) /\ fn_stopped (n_filter s d) = true) \/ (In d (g_sinks g) /\ sr_stopped (n_sink s d) = true).
Definition is_pulse (e : event) : Prop := exists i, e = ETimerFlush i.
End Spec.
