(** * The loop of the statsd source over its UDP sockets: src/source/statsd.rs *)
From Verif Require Import Base TelemetryModel ParseModel Utf8 RuntimeModel AcceptModel.
Open Scope string_scope. Open Scope list_scope. Open Scope nat_scope.

(** a datagram: its bytes *)
Definition datagram := list N.
(** vec![0; 16_250], src/source/statsd.rs:175: recv_from fills it and throws the rest
    of a longer datagram away *)
Definition buffer_size : N := 16250.
Fixpoint first_bytes (n : N) (d : list N) : list N :=
  match d with [] => [] | b :: r => if (n =? 0)%N then [] else b :: first_bytes (n - 1)%N r end.
Definition received (d : datagram) : list N := first_bytes buffer_size d.
(** the text of bytes that are UTF-8 *)
Fixpoint text (bs : list N) : string := match bs with [] => EmptyString | b :: r => String (ascii_of_N b) (text r) end.

Inductive usource := USystem | USocket (i : nat).

Section Statsd.
Context `{Q : QLib}.
Variable pf : string -> option f64.
Variable cfg : statsd_cfg.
(** Simplification: the clock stands still. *)
Variable now : Z.
(** basic_metric, src/source/statsd.rs:97 *)
Variable base : telemetry.

(** Where the loop is: in poll; going through the tokens; in handle_datagrams for a
    socket, with its vector and the tokens to come; returned; panicked. *)
Inductive uphase := UPoll | UEvents (l : list N) | URecv (i : nat) (metrics : list telemetry) (rest : list N) | UEnd | UPanic.

Record udp := mkUdp {
  ud_socks : list (sock datagram);
  ud_signal : bool;
  ud_phase : uphase;
  ud_calls : list (list (nat * datagram));  (** what was received, call by call of handle_datagrams, with the socket *)
  ud_sent : list event;
  ud_good : N; ud_bad : N;
}.
(** init 137-160 and the registrations of run 163-173; left out: a failed lookup (no
    sockets then), registrations that fail *)
Definition udp_start (queues : list (list datagram)) : udp := mkUdp (map sock_start queues) false UPoll [] [] 0 0.

Definition utoken (x : usource) : N := match x with USystem => system_token | USocket i => N.of_nat i end.
Definition uwaiting (s : udp) (x : usource) : bool :=
  match x with
  | USystem => ud_signal s
  | USocket i => match nth_error (ud_socks s) i with Some k => so_edge k | None => false end
  end.
Definition utake_event (s : udp) (x : usource) : udp :=
  match x with
  | USystem => mkUdp (ud_socks s) false (ud_phase s) (ud_calls s) (ud_sent s) (ud_good s) (ud_bad s)
  | USocket i => mkUdp (update i sock_polled (ud_socks s)) (ud_signal s) (ud_phase s) (ud_calls s) (ud_sent s) (ud_good s) (ud_bad s)
  end.
Fixpoint utake_all (xs : list usource) (s : udp) : option udp :=
  match xs with
  | [] => Some s
  | x :: r => if uwaiting s x then utake_all r (utake_event s x) else None
  end.
Definition with_uphase (s : udp) (p : uphase) : udp := mkUdp (ud_socks s) (ud_signal s) p (ud_calls s) (ud_sent s) (ud_good s) (ud_bad s).

(** what recv_from answers: a datagram, WouldBlock, another error *)
Inductive uanswer := UData | UBlocked | UFailed.
(** moves of the world and of the loop *)
Inductive umove := UArrives (i : nat) (d : datagram) | USignalled | UPolls (xs : list usource) | UNext | UReceives (a : uanswer).

(** one token, src/source/statsd.rs:181-198: SYSTEM sends Shutdown and returns, any
    other is a socket's (an unknown one panics in the index of TokenSlab); a call of
    handle_datagrams starts with an empty vector (96) *)
Definition on_utoken (s : udp) (t : N) (rest : list N) : udp :=
  if (t =? system_token)%N then mkUdp (ud_socks s) (ud_signal s) UEnd (ud_calls s) (ud_sent s ++ [EShutdown]) (ud_good s) (ud_bad s)
  else match slab_get (ud_socks s) (N.to_nat t) with
       | Some _ => mkUdp (ud_socks s) (ud_signal s) (URecv (N.to_nat t) [] rest) (ud_calls s ++ [[]]) (ud_sent s) (ud_good s) (ud_bad s)
       | None => with_uphase s UPanic
       end.
Fixpoint add_last {A} (x : A) (l : list (list A)) : list (list A) :=
  match l with [] => [] | [c] => [c ++ [x]] | c :: r => c :: add_last x r end.
(** one turn of the loop of handle_datagrams, src/source/statsd.rs:98-131.  On
    success the vector is drained into the forwards.  An error that is not WouldBlock
    ends the call and is logged as a deregistration (191-197), but nothing is
    deregistered. *)
Definition on_receive (s : udp) (i : nat) (metrics : list telemetry) (rest : list N) (a : uanswer) : option udp :=
  match nth_error (ud_socks s) i with
  | None => None
  | Some k =>
      match a, so_queue k with
      | UData, d :: _ =>
          let socks := update i sock_take (ud_socks s) in
          let calls := add_last (i, d) (ud_calls s) in
          if utf8 (received d) then
            match parse_statsd pf cfg now base (text (received d)) metrics with
            | PReturn true ms => Some (mkUdp socks (ud_signal s) (URecv i [] rest) calls (ud_sent s ++ map ETelemetry ms) (ud_good s + 1) (ud_bad s))
            | PReturn false ms => Some (mkUdp socks (ud_signal s) (URecv i ms rest) calls (ud_sent s) (ud_good s) (ud_bad s + 1))
            | PPanicked => Some (mkUdp socks (ud_signal s) UPanic calls (ud_sent s) (ud_good s) (ud_bad s))
            end
          else Some (mkUdp socks (ud_signal s) (URecv i metrics rest) calls (ud_sent s) (ud_good s) (ud_bad s))
      | UBlocked, [] => Some (with_uphase s (UEvents rest))
      | UFailed, _ => Some (with_uphase s (UEvents rest))
      | _, _ => None
      end
  end.
(** One move; None if it cannot happen now. *)
Definition udp_step (s : udp) (m : umove) : option udp :=
  match m with
  | UArrives i d => if i <? List.length (ud_socks s)
                    then Some (mkUdp (update i (sock_arrive d) (ud_socks s)) (ud_signal s) (ud_phase s) (ud_calls s) (ud_sent s) (ud_good s) (ud_bad s))
                    else None
  | USignalled => Some (mkUdp (ud_socks s) true (ud_phase s) (ud_calls s) (ud_sent s) (ud_good s) (ud_bad s))
  | UPolls xs =>
      match ud_phase s with
      | UPoll => match utake_all xs s with
                 | Some s' => Some (with_uphase s' (UEvents (map utoken xs)))
                 | None => None
                 end
      | _ => None
      end
  | UNext =>
      match ud_phase s with
      | UEvents [] => Some (with_uphase s UPoll)
      | UEvents (t :: rest) => Some (on_utoken s t rest)
      | _ => None
      end
  | UReceives a =>
      match ud_phase s with
      | URecv i metrics rest => on_receive s i metrics rest a
      | _ => None
      end
  end.
Fixpoint udp_run (ms : list umove) (s : udp) : option udp :=
  match ms with
  | [] => Some s
  | m :: r => match udp_step s m with Some s' => udp_run r s' | None => None end
  end.
End Statsd.
