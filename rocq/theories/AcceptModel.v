(** * The accept loop of the TCP sources: src/source/tcp.rs *)
From Verif Require Import Base TelemetryModel RuntimeModel.
Open Scope list_scope. Open Scope nat_scope.

(** A socket as the kernel and mio keep it: what is queued on it, whether an event
    for it waits to be polled, whether it is registered.  Registration is edge
    triggered (src/source/tcp.rs:112-121, src/source/statsd.rs:164-173): an arrival
    makes an event, and registering a socket that has something queued makes one. *)
Record sock (A : Type) := mkSock { so_queue : list A; so_edge : bool; so_reg : bool }.
Arguments mkSock {A}. Arguments so_queue {A}. Arguments so_edge {A}. Arguments so_reg {A}.
(** registering a socket on which [q] is queued *)
Definition sock_start {A} (q : list A) : sock A := mkSock q (negb (match q with [] => true | _ => false end)) true.
(** something arrives *)
Definition sock_arrive {A} (x : A) (s : sock A) : sock A := mkSock (so_queue s ++ [x]) (so_edge s || so_reg s) (so_reg s).
(** its event is handed out by poll *)
Definition sock_polled {A} (s : sock A) : sock A := mkSock (so_queue s) false (so_reg s).
(** the first of the queue is taken *)
Definition sock_take {A} (s : sock A) : sock A := mkSock (tl (so_queue s)) (so_edge s) (so_reg s).
(** Poll::deregister *)
Definition sock_dereg {A} (s : sock A) : sock A := mkSock (so_queue s) false false.

Fixpoint update {A} (i : nat) (f : A -> A) (l : list A) : list A :=
  match l, i with
  | [], _ => []
  | x :: r, 0 => f x :: r
  | x :: r, S j => x :: update j f r
  end.

(** what makes poll events: the shutdown signal (src/thread.rs:59-66), the pool of
    handlers (src/source/tcp.rs:123-130), the listeners *)
Inductive source := FromSystem | FromPool | FromListener (i : nat).

(** A connection is a number, for naming only. *)
Definition conn := nat.

(** Where the loop is: in poll; going through the tokens poll gave; inside
    spawn_stream_handlers for a listener, with the tokens to come; returned; panicked. *)
Inductive aphase := AtPoll | AtEvents (l : list N) | AtAccept (i : nat) (rest : list N) | AtEnd | AtPanic.

Record acceptor := mkAcc {
  ac_socks : list (sock conn);      (** listeners *)
  ac_pool : pool;                   (** handlers *)
  ac_pool_edge : bool;              (** stream_events: an event waits to be polled *)
  ac_signal : bool;                 (** SYSTEM: likewise *)
  ac_phase : aphase;
  ac_taken : list (nat * conn * bool);  (** every connection taken off a listener's queue: by listener; true if accepted *)
  ac_handlers : list (nat * conn);  (** handlers spawned: thread id and connection *)
  ac_shutdowns : nat;               (** Shutdown events sent to the forwards by the source *)
}.

(** init 69-108 and the registrations of run 111-132; left out: registrations that
    fail (logged only) *)
Definition acc_start (queues : list (list conn)) : acceptor :=
  mkAcc (map sock_start queues) pool_new false false AtPoll [] [] 0.

(** the token a source is registered with: src/source/tcp.rs:100, 114, 124 *)
Definition token_of (listeners : nat) (x : source) : N :=
  match x with
  | FromSystem => system_token
  | FromPool => N.of_nat listeners
  | FromListener i => N.of_nat i
  end.
Definition waiting (s : acceptor) (x : source) : bool :=
  match x with
  | FromSystem => ac_signal s
  | FromPool => ac_pool_edge s
  | FromListener i => match nth_error (ac_socks s) i with Some k => so_edge k | None => false end
  end.
Definition take_event (s : acceptor) (x : source) : acceptor :=
  match x with
  | FromSystem => mkAcc (ac_socks s) (ac_pool s) (ac_pool_edge s) false (ac_phase s) (ac_taken s) (ac_handlers s) (ac_shutdowns s)
  | FromPool => mkAcc (ac_socks s) (ac_pool s) false (ac_signal s) (ac_phase s) (ac_taken s) (ac_handlers s) (ac_shutdowns s)
  | FromListener i => mkAcc (update i sock_polled (ac_socks s)) (ac_pool s) (ac_pool_edge s) (ac_signal s) (ac_phase s) (ac_taken s) (ac_handlers s) (ac_shutdowns s)
  end.
(** Poll hands out events that wait, each once; those it leaves (its buffer holds
    1024, src/source/tcp.rs:142) wait on.  None: no such event waits. *)
Fixpoint take_all (xs : list source) (s : acceptor) : option acceptor :=
  match xs with
  | [] => Some s
  | x :: r => if waiting s x then take_all r (take_event s x) else None
  end.
Definition with_phase (s : acceptor) (p : aphase) : acceptor :=
  mkAcc (ac_socks s) (ac_pool s) (ac_pool_edge s) (ac_signal s) p (ac_taken s) (ac_handlers s) (ac_shutdowns s).
Definition with_socks (s : acceptor) (k : list (sock conn)) : acceptor :=
  mkAcc k (ac_pool s) (ac_pool_edge s) (ac_signal s) (ac_phase s) (ac_taken s) (ac_handlers s) (ac_shutdowns s).
Definition with_pool (s : acceptor) (p : pool) : acceptor :=
  mkAcc (ac_socks s) p (ac_pool_edge s) (ac_signal s) (ac_phase s) (ac_taken s) (ac_handlers s) (ac_shutdowns s).

(** What accept() answers: a connection; one of ConnectionAborted, Interrupted,
    TimedOut, the connection being gone or not; WouldBlock; another error (such as
    too many open files), which leaves the queue as it is. *)
Inductive answer := Accepted | Again (gone : bool) | Blocked | Failed.

(** Moves: of the world (arrivals, handlers ending, the shutdown signal) and of the loop. *)
Inductive move :=
| Arrives (i : nat) (c : conn)
| Ends (id : nat) (** a handler's closure returns: src/thread.rs:107-118 *)
| Crashes (id : nat)
| Signalled
| Polls (xs : list source)
| Next (ends : nat -> bool) (** [ends]: how the handlers still running end when shut down *)
| Accepts (a : answer).

Definition runs_now (p : pool) (id : nat) : bool := match alookup Nat.eqb id (p_stat p) with Some TRunning => true | _ => false end.

(** One token: accept_loop 144-171.  SYSTEM: shut the handlers down, send Shutdown,
    return (147-151); the stream events token: join_ready (153-162); any other token is
    a listener's (163-170; an unknown one panics in the index of TokenSlab). *)
Definition on_token (ends : nat -> bool) (s : acceptor) (t : N) (rest : list N) : acceptor :=
  if (t =? system_token)%N then
    match pool_shutdown ends (ac_pool s) with
    | Some p => mkAcc (ac_socks s) p (ac_pool_edge s) (ac_signal s) AtEnd (ac_taken s) (ac_handlers s) (ac_shutdowns s + 1)
    | None => with_phase s AtPanic
    end
  else if (t =? N.of_nat (slab_count (ac_socks s)))%N then
    match join_ready (ac_pool s) with
    | Some p => with_phase (with_pool s p) (AtEvents rest)
    | None => with_phase s AtPanic
    end
  else match slab_get (ac_socks s) (N.to_nat t) with
       | Some _ => with_phase s (AtAccept (N.to_nat t) rest)
       | None => with_phase s AtPanic
       end.

(** spawn_stream_handlers 178-221, one turn of its loop; and the Err branch of the
    caller 163-170 *)
Definition on_accept (s : acceptor) (i : nat) (rest : list N) (a : answer) : option acceptor :=
  match nth_error (ac_socks s) i with
  | None => None
  | Some k =>
      match a, so_queue k with
      | Accepted, c :: _ =>
          Some (mkAcc (update i sock_take (ac_socks s)) (pool_spawn (ac_pool s)) (ac_pool_edge s) (ac_signal s) (ac_phase s)
                  (ac_taken s ++ [(i, c, true)]) (ac_handlers s ++ [(p_next (ac_pool s), c)]) (ac_shutdowns s))
      | Again true, c :: _ =>
          Some (mkAcc (update i sock_take (ac_socks s)) (ac_pool s) (ac_pool_edge s) (ac_signal s) (ac_phase s)
                  (ac_taken s ++ [(i, c, false)]) (ac_handlers s) (ac_shutdowns s))
      | Again false, _ => Some s
      | Blocked, [] => Some (with_phase s (AtEvents rest))
      | Failed, _ => Some (with_phase (with_socks s (update i sock_dereg (ac_socks s))) (AtEvents rest))
      | _, _ => None
      end
  end.

(** One move; None if it cannot happen now. *)
Definition acc_step (s : acceptor) (m : move) : option acceptor :=
  match m with
  | Arrives i c => if i <? List.length (ac_socks s) then Some (with_socks s (update i (sock_arrive c) (ac_socks s))) else None
  | Ends id => if runs_now (ac_pool s) id
               then Some (mkAcc (ac_socks s) (pool_finish id (ac_pool s)) true (ac_signal s) (ac_phase s) (ac_taken s) (ac_handlers s) (ac_shutdowns s))
               else None
  | Crashes id => if runs_now (ac_pool s) id then Some (with_pool s (pool_crash id (ac_pool s))) else None
  | Signalled => Some (mkAcc (ac_socks s) (ac_pool s) (ac_pool_edge s) true (ac_phase s) (ac_taken s) (ac_handlers s) (ac_shutdowns s))
  | Polls xs =>
      match ac_phase s with
      | AtPoll => match take_all xs s with
                  | Some s' => Some (with_phase s' (AtEvents (map (token_of (List.length (ac_socks s))) xs)))
                  | None => None
                  end
      | _ => None
      end
  | Next ends =>
      match ac_phase s with
      | AtEvents [] => Some (with_phase s AtPoll)
      | AtEvents (t :: rest) => Some (on_token ends s t rest)
      | _ => None
      end
  | Accepts a =>
      match ac_phase s with
      | AtAccept i rest => on_accept s i rest a
      | _ => None
      end
  end.
Fixpoint acc_run (ms : list move) (s : acceptor) : option acceptor :=
  match ms with
  | [] => Some s
  | m :: r => match acc_step s m with Some s' => acc_run r s' | None => None end
  end.
