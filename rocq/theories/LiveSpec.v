(** * Executions of the process that go on for ever, and their fairness. *)
From Verif Require Import Base TelemetryModel FlowModel FlowSpec TopologyModel TopologySpec NetworkModel NetworkSpec.
Open Scope string_scope. Open Scope list_scope. Open Scope nat_scope.

Section Live.
Context `{Q : QLib} {S : Type}.
Variable proc : string -> S -> event -> S * list event * option event.
Variable st0 : string -> S.
Variable fint : string -> option N.

(** [x i] is the state at time [i], [l i] what happens then; None: nothing *)
Definition execution (t : started) (x : nat -> @net Q S) (l : nat -> option label) : Prop :=
  x 0 = net0 st0 /\
  forall i, match l i with Some a => nstep proc fint t (x i) a (x (i + 1)) | None => x (i + 1) = x i end.
(** what has happened before time [i] *)
Fixpoint before (l : nat -> option (@label Q)) (i : nat) : list label :=
  match i with 0 => [] | Datatypes.S i => before l i ++ match l i with Some a => [a] | None => [] end end.

Definition again_and_again (P : nat -> Prop) : Prop := forall i, exists j, i <= j /\ P j.
(** a filter or sink that takes nothing from its queue: it is empty, or the thread is busy or over *)
Definition filter_waits (s : @net Q S) (d : string) : Prop :=
  n_queue s d = [] \/ n_out s (Fil d) <> [] \/ fn_stopped (n_filter s d) = true.
Definition sink_waits (s : @net Q S) (d : string) : Prop :=
  n_queue s d = [] \/ sr_hand (n_sink s d) <> None \/ sr_stopped (n_sink s d) = true.

(** No thread that could go on is left standing for ever, and no valve stays closed for ever. *)
Record fair (g : config) (x : nat -> @net Q S) (l : nat -> option label) : Prop := {
  fair_send : forall u, again_and_again (fun i => n_out (x i) u = [] \/ exists d e ok, l i = Some (LCopy u d e ok));
  fair_filter : forall d, In d (map fst (g_filters g)) -> again_and_again (fun i => filter_waits (x i) d \/ exists e, l i = Some (LPoll d e));
  fair_sink : forall d, In d (g_sinks g) -> again_and_again (fun i => sink_waits (x i) d \/ exists e, l i = Some (LPoll d e));
  fair_valve : forall d, In d (g_sinks g) ->
    again_and_again (fun i => sr_hand (n_sink (x i) d) = None \/ sr_stopped (n_sink (x i) d) = true \/ l i = Some (LValve d true));
}.
(** no full queue ever refuses a shutdown marker *)
Definition markers_kept (l : nat -> option (@label Q)) : Prop := forall i u d, l i <> Some (LCopy u d EShutdown false).
(** every source stops at some time *)
Definition sources_stop (g : config) (x : nat -> @net Q S) : Prop :=
  forall id, In id (map fst (g_natives g ++ g_sources g)) -> exists i, n_done (x i) id = true.
End Live.

Section Ways.
Context `{Q : QLib} {S : Type}.
(** a filter that hands [e] on whatever its state *)
Definition passes (proc : string -> S -> event -> S * list event * option event) (e : event) (f : string) : Prop :=
  forall st, In e (snd (fst (proc f st e))) /\ snd (proc f st e) = None.
(** a way of the configuration from [u] to [d]: [via] are the filters between them *)
Inductive way (g : config) : string -> list string -> string -> Prop :=
| way_direct u d : upstream g u d -> way g u [] d
| way_filter u f via d : upstream g u f -> In f (map fst (g_filters g)) -> way g f via d -> way g u (f :: via) d.
(** no full queue ever refuses anything *)
Definition all_kept (l : nat -> option (@label Q)) : Prop := forall i u d e, l i <> Some (LCopy u d e false).
(** the timer goes on *)
Definition timer_goes (l : nat -> option (@label Q)) : Prop := again_and_again (fun i => l i = Some LPulse).
End Ways.
