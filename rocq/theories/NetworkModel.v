(** * The running process: sources, filters, sinks and the timer, connected as
    main has wired them. *)
From Verif Require Import Base TelemetryModel FlowModel TopologyModel.
Open Scope string_scope. Open Scope list_scope. Open Scope nat_scope.

Section Network.
Context `{Q : QLib}.
(** The filters: one type holds the states of all of them, [proc id] is the
    [process] of the filter [id] (src/filter/mod.rs:48-52), [st0 id] its state
    when it starts.  [fint id] is flush_interval() of the sink [id]
    (src/sink/mod.rs:60). *)
Context {S : Type}.
Variable proc : string -> S -> event -> S * list event * option event.
Variable st0 : string -> S.
Variable fint : string -> option N.
Definition filter_of (id : string) : filt := mkFilt S (proc id).

(** Who sends: a thread of a source (0 is the source's own; the others are stream
    handlers, src/source/tcp.rs:187-204, each with its own clone of the senders), a
    filter, the timer. *)
Inductive who := Src (id : string) (k : nat) | Fil (id : string) | Tim.
Definition weqb (a b : who) : bool :=
  match a, b with
  | Src i k, Src j l => seqb i j && (k =? l)
  | Fil i, Fil j => seqb i j
  | Tim, Tim => true
  | _, _ => false
  end.

(** The state of a filter's thread, src/filter/mod.rs:69-76 *)
Record fnode := mkFnode { fn_state : S; fn_buf : list event; fn_shut : nat; fn_stopped : bool }.

(** The state of the process.  [n_out u]: the copies that the util::send calls
    [u] is in have still to make.  [n_queue d]: the hopper queue of [d].
    [n_done id]: source [id] has begun to send Shutdown.  [n_idx]: the index of the
    last pulse of the timer. The queue inside [sink_run] is not used here. *)
Record net := mkNet {
  n_out : who -> list (string * event);
  n_queue : string -> list event;
  n_filter : string -> fnode;
  n_sink : string -> sink_run;
  n_done : string -> bool;
  n_idx : N;
}.
Definition net0 : net :=
  mkNet (fun _ => []) (fun _ => []) (fun id => mkFnode (st0 id) [] 0 false) (fun _ => sink_start) (fun _ => false) 0.

Definition upd {A B} (eqb : A -> A -> bool) (a : A) (b : B) (f : A -> B) : A -> B := fun x => if eqb a x then b else f x.
Definition set_out u l (s : net) := mkNet (upd weqb u l (n_out s)) (n_queue s) (n_filter s) (n_sink s) (n_done s) (n_idx s).
Definition set_queue d l (s : net) := mkNet (n_out s) (upd seqb d l (n_queue s)) (n_filter s) (n_sink s) (n_done s) (n_idx s).
Definition set_filter d x (s : net) := mkNet (n_out s) (n_queue s) (upd seqb d x (n_filter s)) (n_sink s) (n_done s) (n_idx s).
Definition set_sink d x (s : net) := mkNet (n_out s) (n_queue s) (n_filter s) (upd seqb d x (n_sink s)) (n_done s) (n_idx s).
Definition set_done d (s : net) := mkNet (n_out s) (n_queue s) (n_filter s) (n_sink s) (upd seqb d true (n_done s)) (n_idx s).
Definition set_idx i (s : net) := mkNet (n_out s) (n_queue s) (n_filter s) (n_sink s) (n_done s) i.

(** util::send, src/util.rs:28-68: one copy per forward, the first forward last *)
Definition copies (sends : list string) (e : event) : list (string * event) :=
  match sends with [] => [] | d :: r => map (fun x => (x, e)) (r ++ [d]) end.

(** What happens.  Reading of the sources' inputs is [LEmit]: any data, at any time.
    A copy is accepted ([true]) or refused as full and dropped; transient errors
    are retried and change nothing.  Empty polls change nothing. *)
Inductive label :=
| LEmit (id : string) (k : nat) (e : event)
| LStop (id : string)                       (** a source was told to stop *)
| LPulse                                    (** the timer's second has passed *)
| LCopy (u : who) (d : string) (e : event) (ok : bool)
| LPoll (d : string) (e : event)
| LValve (d : string) (is_open : bool).     (** a turn of the sink's inner loop *)

(** One turn of the loop of the filter [id] of [n] upstreams with the event [e]:
    its new state and what it gives to util::send; src/filter/mod.rs:77-113 *)
Definition filter_turn (id : string) (n : nat) (x : fnode) (e : event) : fnode * list event :=
  let r := f_run (filter_of id) n [Some e] (fn_state x) (fn_buf x) (fn_shut x) in
  (mkFnode (fr_state r) (fr_buffer r) (match e with EShutdown => fn_shut x + 1 | _ => fn_shut x end) (fr_stopped r), fr_sent r).

(** what sources send while they run: the files of src/source *)
Definition payload_event (e : event) : bool :=
  match e with ETelemetry _ | ELog _ | ERaw _ => true | _ => false end.

Inductive nstep (t : started) (s : net) : label -> net -> Prop :=
(** a thread of a source sends data: the files of src/source *)
| step_emit id sends k e :
    alookup seqb id (t_sources t) = Some sends -> n_done s id = false -> n_out s (Src id k) = [] -> payload_event e = true ->
    nstep t s (LEmit id k e) (set_out (Src id k) (copies sends e) s)
(** a source stops: its handlers are joined, then Shutdown is sent once;
    src/source/tcp.rs:150-154, and SYSTEM in the other sources.  Handlers that
    crash or hang (C74) are left out. *)
| step_stop id sends :
    alookup seqb id (t_sources t) = Some sends -> n_done s id = false -> (forall k, n_out s (Src id k) = []) ->
    nstep t s (LStop id) (set_out (Src id 0) (copies sends EShutdown) (set_done id s))
(** the timer, src/source/flush.rs:31-48; it never stops *)
| step_pulse :
    n_out s Tim = [] ->
    nstep t s LPulse (set_out Tim (copies (t_timer t) (ETimerFlush ((n_idx s + 1) mod 2 ^ 64)%N)) (set_idx ((n_idx s + 1) mod 2 ^ 64)%N s))
(** the next copy of a send, src/util.rs:37-67 *)
| step_copy u d e r ok :
    n_out s u = (d, e) :: r ->
    nstep t s (LCopy u d e ok) (set_out u r (if ok then set_queue d (n_queue s d ++ [e]) s else s))
(** a filter takes an event, src/filter/mod.rs:77-113; it sends before it polls
    again *)
| step_filter d sources sends e q :
    alookup seqb d (t_filters t) = Some (sources, sends) ->
    n_out s (Fil d) = [] -> fn_stopped (n_filter s d) = false -> n_queue s d = e :: q ->
    nstep t s (LPoll d e)
      (set_out (Fil d) (flat_map (copies sends) (snd (filter_turn d (List.length sources) (n_filter s d) e)))
        (set_filter d (fst (filter_turn d (List.length sources) (n_filter s d) e)) (set_queue d q s)))
(** a sink takes an event, src/sink/mod.rs:91-111 *)
| step_sink d sources e q :
    alookup seqb d (t_sinks t) = Some sources ->
    sr_stopped (n_sink s d) = false -> sr_hand (n_sink s d) = None -> n_queue s d = e :: q ->
    nstep t s (LPoll d e)
      (set_sink d (sink_step (List.length sources) (fint d) (sink_step (List.length sources) (fint d) (n_sink s d) (Arrive e)) Poll)
        (set_queue d q s))
(** a turn of its inner loop, src/sink/mod.rs:112-191 *)
| step_valve d sources is_open e :
    alookup seqb d (t_sinks t) = Some sources ->
    sr_stopped (n_sink s d) = false -> sr_hand (n_sink s d) = Some e ->
    nstep t s (LValve d is_open)
      (set_sink d (sink_step (List.length sources) (fint d) (n_sink s d) (ValveSays is_open)) s).

(** the executions, with what happened in them *)
Inductive nrun (t : started) : list label -> net -> Prop :=
| run_start : nrun t [] net0
| run_step tr s l s' : nrun t tr s -> nstep t s l s' -> nrun t (tr ++ [l]) s'.
End Network.
