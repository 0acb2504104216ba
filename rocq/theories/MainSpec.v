(** * Specification of the process from start to exit *)
From Verif Require Import Base TelemetryModel FlowModel TopologyModel TopologySpec NetworkModel NetworkSpec LiveSpec MainModel.
Open Scope string_scope. Open Scope list_scope. Open Scope nat_scope.

Section Spec.
Context `{Q : QLib} {S : Type}.
Definition returned (p : @process Q S) : Prop := p_main p = Stopping [].
(** the lists are what main's three maps yield *)
Definition main_holds (g : config) (sources sinks filters : list string) : Prop :=
  lists sources (fun id => In id (map fst (g_natives g ++ g_sources g))) /\
  lists sinks (fun id => In id (g_sinks g)) /\ lists filters (fun id => In id (map fst (g_filters g))).
Definition threads (g : config) : list thread :=
  map TSource (map fst (g_natives g ++ g_sources g)) ++ map TSink (g_sinks g) ++ map TFilter (map fst (g_filters g)).
(** what the network did *)
Definition net_trace (tr : list (@plabel Q)) : list (@label Q) := flat_map (fun l => match l with PNet a => [a] | _ => [] end) tr.

(** ** executions for ever *)
Variable proc : string -> S -> event -> S * list event * option event.
Variable st0 : string -> S.
Variable fint : string -> option N.
Definition pexecution (t : started) (work : list chore) (x : nat -> @process Q S) (l : nat -> option (@plabel Q)) : Prop :=
  x 0 = process0 st0 /\
  forall i, match l i with Some a => pstep proc fint t work (x i) a (x (i + 1)) | None => x (i + 1) = x i end.
(** main waits: for the signal, or for a thread that has neither ended nor panicked *)
Definition main_waits (p : @process Q S) : Prop :=
  p_main p = Serving \/ exists th r, p_main p = Stopping (Await th :: r) /\ ~ ended (p_net p) th.
Definition main_label (a : @plabel Q) : Prop := match a with PTell _ | PJoin _ | PFail _ => True | _ => False end.
(** As long as the process lives: no thread that could go on is left standing for ever, no valve stays closed for ever;
    main too goes on when it can. *)
Record pfair (g : config) (x : nat -> @process Q S) (l : nat -> option (@plabel Q)) : Prop := {
  pfair_send : forall u, again_and_again (fun i => returned (x i) \/ n_out (p_net (x i)) u = [] \/ exists d e ok, l i = Some (PNet (LCopy u d e ok)));
  pfair_filter : forall d, In d (map fst (g_filters g)) ->
    again_and_again (fun i => returned (x i) \/ filter_waits (p_net (x i)) d \/ exists e, l i = Some (PNet (LPoll d e)));
  pfair_sink : forall d, In d (g_sinks g) ->
    again_and_again (fun i => returned (x i) \/ sink_waits (p_net (x i)) d \/ exists e, l i = Some (PNet (LPoll d e)));
  pfair_valve : forall d, In d (g_sinks g) ->
    again_and_again (fun i => returned (x i) \/ sr_hand (n_sink (p_net (x i)) d) = None \/ sr_stopped (n_sink (p_net (x i)) d) = true \/ l i = Some (PNet (LValve d true)));
  pfair_main : again_and_again (fun i => returned (x i) \/ main_waits (x i) \/ exists a, l i = Some a /\ main_label a);
}.
(** no thread panics, the signal comes, a source that is told stops, no full queue refuses a shutdown marker *)
Definition no_crash (l : nat -> option (@plabel Q)) : Prop := forall i th, l i <> Some (PCrash th).
Definition signal_comes (l : nat -> option (@plabel Q)) : Prop := exists i, l i = Some PSignal.
Definition told_stops (x : nat -> @process Q S) : Prop := forall i id, p_told (x i) id = true -> exists j, n_done (p_net (x j)) id = true.
Definition pmarkers_kept (l : nat -> option (@plabel Q)) : Prop := forall i u d, l i <> Some (PNet (LCopy u d EShutdown false)).
End Spec.
