(** * The process from start to exit: the threads of NetworkModel.v and main beside them, src/bin/cernan.rs *)
From Verif Require Import Base TelemetryModel FlowModel TopologyModel NetworkModel.
Open Scope string_scope. Open Scope list_scope. Open Scope nat_scope.

(** the threads main holds a handle of, src/bin/cernan.rs:123-125: the maps sources, filters, sinks *)
Inductive thread := TSource (id : string) | TSink (id : string) | TFilter (id : string).
Definition teqb (a b : thread) : bool :=
  match a, b with
  | TSource i, TSource j | TSink i, TSink j | TFilter i, TFilter j => seqb i j
  | _, _ => false
  end.
(** what main does after the signal: set the readiness of a source, src/thread.rs:43-46, or wait for a thread,
    src/thread.rs:36 *)
Inductive chore := Tell (id : string) | Await (th : thread).
(** the end of main, src/bin/cernan.rs:797-806, and join_all, 61-65.  The three lists are the orders in which the hash
    maps yield their threads. *)
Definition chores (sources sinks filters : list string) : list chore :=
  flat_map (fun id => [Tell id; Await (TSource id)]) sources ++
  map (fun id => Await (TSink id)) sinks ++ map (fun id => Await (TFilter id)) filters.

(** where main is: waiting for SIGINT or SIGTERM (src/bin/cernan.rs:795), after it, or panicked.  [Stopping []]: main has
    returned. *)
Inductive place := Serving | Stopping (rest : list chore) | Panicked.

Section Main.
Context `{Q : QLib} {S : Type}.
Variable proc : string -> S -> event -> S * list event * option event.
Variable st0 : string -> S.
Variable fint : string -> option N.

(** [p_told id]: the readiness of source [id] is set.  [p_crashed th]: the thread has panicked. *)
Record process := mkProcess { p_net : @net Q S; p_main : place; p_told : string -> bool; p_crashed : thread -> bool }.
Definition process0 : process := mkProcess (net0 st0) Serving (fun _ => false) (fun _ => false).

(** the function of the thread has returned: run of the source, Filter::run, Sink::consume *)
Definition ended (s : @net Q S) (th : thread) : Prop :=
  match th with
  | TSource id => n_done s id = true /\ n_out s (Src id 0) = []
  | TSink id => sr_stopped (n_sink s id) = true
  | TFilter id => fn_stopped (n_filter s id) = true /\ n_out s (Fil id) = []
  end.
(** main ends the process when it returns or panics, whatever the other threads do *)
Definition living (p : process) : Prop := p_main p <> Stopping [] /\ p_main p <> Panicked.
(** the thread that makes a step of the network.  The timer and the stream handlers of a source are threads main knows
    nothing of. *)
Definition acts (l : @label Q) (th : thread) : Prop :=
  match l, th with
  | LEmit id 0 _, TSource i => i = id
  | LStop id, TSource i => i = id
  | LCopy (Src id 0) _ _ _, TSource i => i = id
  | LCopy (Fil id) _ _ _, TFilter i => i = id
  | LPoll d _, TFilter i | LPoll d _, TSink i => i = d
  | LValve d _, TSink i => i = d
  | _, _ => False
  end.

Inductive plabel := PNet (l : @label Q) | PCrash (th : thread) | PSignal | PTell (id : string) | PJoin (th : thread) | PFail (th : thread).
Definition set_net s (p : process) := mkProcess s (p_main p) (p_told p) (p_crashed p).
Definition set_main m (p : process) := mkProcess (p_net p) m (p_told p) (p_crashed p).

(** Simplifications: set_readiness does not fail; a source looks at its readiness whenever it likes, and stops only if it
    is set; time::update_time's thread does nothing that shows here. *)
Inductive pstep (t : started) (work : list chore) (p : process) : plabel -> process -> Prop :=
| p_step l s' :
    living p -> nstep proc fint t (p_net p) l s' -> (forall id, l = LStop id -> p_told p id = true) ->
    (forall th, acts l th -> p_crashed p th = false) ->
    pstep t work p (PNet l) (set_net s' p)
(** a thread panics: any time before it ends *)
| p_crash th :
    living p -> ~ ended (p_net p) th ->
    pstep t work p (PCrash th) (mkProcess (p_net p) (p_main p) (p_told p) (fun x => if teqb th x then true else p_crashed p x))
(** signal.recv(), src/bin/cernan.rs:795 *)
| p_signal :
    p_main p = Serving -> pstep t work p PSignal (set_main (Stopping work) p)
(** ThreadHandle::shutdown, its first half, src/thread.rs:43-46 *)
| p_tell id r :
    p_main p = Stopping (Tell id :: r) ->
    pstep t work p (PTell id) (mkProcess (p_net p) (Stopping r) (fun x => if seqb id x then true else p_told p x) (p_crashed p))
(** join, src/thread.rs:35-37: blocks until the thread has ended; expect panics if it had panicked *)
| p_join th r :
    p_main p = Stopping (Await th :: r) -> ended (p_net p) th -> p_crashed p th = false ->
    pstep t work p (PJoin th) (set_main (Stopping r) p)
| p_fail th r :
    p_main p = Stopping (Await th :: r) -> p_crashed p th = true ->
    pstep t work p (PFail th) (set_main Panicked p).

(** the executions *)
Inductive prun (t : started) (work : list chore) : list plabel -> process -> Prop :=
| prun_start : prun t work [] process0
| prun_step tr p l p' : prun t work tr p -> pstep t work p l p' -> prun t work (tr ++ [l]) p'.
End Main.
