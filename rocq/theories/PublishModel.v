(** * An avro source in front of a kafka sink: handlers of connections, queue, sink and ack bag together.
    src/source/avro.rs, src/sink/mod.rs, src/sink/kafka.rs, src/metric/ackbag.rs *)
From Verif Require Import Base TelemetryModel AvroModel KafkaModel.
Open Scope list_scope. Open Scope nat_scope.

(** SyncAckBag::wait_for_callback, src/metric/ackbag.rs:81-98: [looks] are the entries it finds, one per turn of the
    loop (number of acks, None: no entry); the milliseconds slept after each look, or None if it is still waiting when
    they are used up. *)
Fixpoint wait_naps (nap : N) (looks : list (option nat)) : option (list N) :=
  match looks with
  | [] => None
  | Some 0 :: r => option_map (cons nap) (wait_naps (N.min 250 (nap * 2)) r)
  | _ :: _ => Some []
  end.
(** wait_for, src/metric/ackbag.rs:76-78 *)
Definition wait_for (looks : list (option nat)) : option (list N) := wait_naps 5 looks.

Section Publish.
(** serde_avro accepts; str::from_utf8 succeeds; the answer of the broker to each try_payload call *)
Variable container_ok : list N -> bool.
Variable utf8_ok : bytes -> bool.
Variable ans : nat -> kanswer.
(** the payloads the client of each connection sends, in order; the reader gives them out one by one (C31, C126) *)
Variable payloads : N -> list (list N).
(** max_message_bytes of the sink *)
Variable max : nat.

(** header.sync() of payload [i] of connection [c], avro.rs:315 and 330; None: there is none, or it is invalid and ends
    the connection *)
Definition asks (c : N) (i : nat) : option bool :=
  match nth_error (payloads c) i with
  | Some bs => match payload_from container_ok bs with AValid h _ _ => Some (h_sync h) | _ => None end
  | None => None
  end.
(** the event of payload [i] of connection [c], avro.rs:319-328 *)
Definition event_of (c : N) (i : nat) : option raw :=
  match nth_error (payloads c) i with Some bs => raw_of container_ok c bs | None => None end.

(** where each handler is, the ack bag, the queue between source and sink, the sink, and the calls a flush has still
    to make *)
Record pub := mkPub {
  p_conn : N -> nat * phase;
  p_bag : N -> option nat;
  p_queue : list raw;
  p_sink : kafka;
  p_todo : list kcall;
}.
Definition pub_start : pub := mkPub (fun _ => (0, PReady)) (fun _ => None) [] (kafka_init max) [].

Inductive plabel :=
| PPrepare (c : N) (i : nat)             (** ackbag.prepare_wait, avro.rs:316 *)
| PSend (c : N) (i : nat) (ok : bool)    (** util::send, avro.rs:319; false: the queue is full and the event dropped *)
| PWake (c : N) (i : nat)                (** wait_for returns, avro.rs:331 *)
| PRemove (c : N) (i : nat)              (** ackbag.remove, avro.rs:332 *)
| PAnswer (c : N) (i : nat)              (** the id of the payload is written to the client, avro.rs:208-218 *)
| PDeliver (r : krec)                    (** the sink takes an event: deliver_raw with its try_payload *)
| PFlush                                 (** the sink starts a flush *)
| PCall (k : kcall).                     (** the next call of the flush *)

(** One step of a handler or of the sink.  Every operation of the ack bag holds its mutex (ackbag.rs:44-72).
    Simplifications: saturating_add does not saturate; connection ids are unique; the sink may flush at any time
    between events (pulses of the timer are not in the queue) and must when its valve is closed (sink/mod.rs:190-193);
    the answers of the broker that a flush awaits are known when it starts. *)
Inductive pstep (s : pub) : plabel -> pub -> Prop :=
| p_prepare c i :
    p_conn s c = (i, PReady) -> asks c i = Some true ->
    pstep s (PPrepare c i) (mkPub (upd (p_conn s) c (i, PPrepared)) (upd (p_bag s) c (Some 0)) (p_queue s) (p_sink s) (p_todo s))
| p_send_sync c i e (ok : bool) :
    p_conn s c = (i, PPrepared) -> event_of c i = Some e ->
    pstep s (PSend c i ok) (mkPub (upd (p_conn s) c (i, PSent)) (p_bag s) (if ok then p_queue s ++ [e] else p_queue s) (p_sink s) (p_todo s))
| p_send_async c i e (ok : bool) :
    p_conn s c = (i, PReady) -> asks c i = Some false -> event_of c i = Some e ->
    pstep s (PSend c i ok) (mkPub (upd (p_conn s) c (S i, PReady)) (p_bag s) (if ok then p_queue s ++ [e] else p_queue s) (p_sink s) (p_todo s))
| p_wake c i :
    p_conn s c = (i, PSent) -> p_bag s c <> Some 0 ->
    pstep s (PWake c i) (mkPub (upd (p_conn s) c (i, PWoken)) (p_bag s) (p_queue s) (p_sink s) (p_todo s))
| p_remove c i :
    p_conn s c = (i, PWoken) ->
    pstep s (PRemove c i) (mkPub (upd (p_conn s) c (i, PRemoved)) (upd (p_bag s) c None) (p_queue s) (p_sink s) (p_todo s))
| p_answer c i :
    p_conn s c = (i, PRemoved) ->
    pstep s (PAnswer c i) (mkPub (upd (p_conn s) c (S i, PReady)) (p_bag s) (p_queue s) (p_sink s) (p_todo s))
| p_deliver e q k r :
    p_todo s = [] -> p_queue s = e :: q -> k_valve_open (p_sink s) = true -> k_deliver utf8_ok (p_sink s) e = Some (k, [CSend r]) ->
    pstep s (PDeliver r) (mkPub (p_conn s) (p_bag s) q k [])
| p_flush rounds k calls :
    p_todo s = [] -> k_flush ans rounds (p_sink s) = Some (k, calls) ->
    pstep s PFlush (mkPub (p_conn s) (p_bag s) (p_queue s) k calls)
| p_ack c todo :
    p_todo s = CAck c :: todo ->
    pstep s (PCall (CAck c)) (mkPub (p_conn s) (match p_bag s c with Some n => upd (p_bag s) c (Some (S n)) | None => p_bag s end) (p_queue s) (p_sink s) todo)
| p_call k todo :
    p_todo s = k :: todo -> (forall c, k <> CAck c) ->
    pstep s (PCall k) (mkPub (p_conn s) (p_bag s) (p_queue s) (p_sink s) todo).

(** executions: the labels in order *)
Inductive pruns : list plabel -> pub -> Prop :=
| pruns_start : pruns [] pub_start
| pruns_step tr s l s' : pruns tr s -> pstep s l s' -> pruns (tr ++ [l]) s'.
End Publish.
