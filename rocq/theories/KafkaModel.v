(** * The kafka sink: src/sink/kafka.rs *)
From Verif Require Import Base TelemetryModel AvroModel.
Open Scope string_scope. Open Scope list_scope. Open Scope nat_scope.

(** RDKafkaError of a failed production (rdkafka crate): the thirteen codes named in
    kafka.rs:409-421 and all others *)
Inductive rderr :=
| InvalidMessage | UnknownTopicOrPartition | LeaderNotAvailable | NotLeaderForPartition
| RequestTimedOut | NetworkException | GroupLoadInProgress | GroupCoordinatorNotAvailable
| MessageTimedOut | NotCoordinatorForGroup | NotEnoughReplicas | NotEnoughReplicasAfterAppend
| NotController | OtherCode (n : N).
(** the match arm, kafka.rs:409-421 *)
Definition retryable (e : rderr) : bool :=
  match e with
  | InvalidMessage | UnknownTopicOrPartition | LeaderNotAvailable | NotLeaderForPartition
  | RequestTimedOut | NetworkException | GroupLoadInProgress | GroupCoordinatorNotAvailable
  | MessageTimedOut | NotCoordinatorForGroup | NotEnoughReplicas | NotEnoughReplicasAfterAppend
  | NotController => true
  | OtherCode _ => false
  end.

Definition bytes := list N.
Definition metadata := list (bytes * bytes).

(** arguments of try_payload, kafka.rs:139-145 (the topic is fixed) *)
Record krec := mkKrec {
  k_payload : bytes;
  k_key : bytes;
  k_meta : option metadata;
  k_conn : option N;
}.
(** the message handed back with an error: rdkafka's OwnedMessage *)
Record owned := mkOwned { o_payload : option bytes; o_key : option bytes; o_headers : option metadata }.
(** what finalize returns, kafka.rs:397-452 *)
Inductive kanswer :=
| KOk                                        (** partition and offset *)
| KProduction (e : rderr) (m : owned)        (** KafkaError::MessageProduction *)
| KOther (m : owned)                         (** another KafkaError *)
| KCanceled.                                 (** None: the operation was canceled *)

(** what the sink does to the outside *)
Inductive kcall :=
| CSend (r : krec)                           (** try_payload *)
| CAck (c : N)                               (** with_props(ack) on the ack bag *)
| CCount (published failed retried : N)      (** kafka.rs:456-458 *)
| CRetryFailed.                              (** increment_retry_failed(1), kafka.rs:354 *)

(** struct Kafka, kafka.rs:252-269; a message in flight is the number of its
    try_payload call and its connection (KafkaPublishResult, kafka.rs:108-131) *)
Record kafka := mkKafka {
  q_messages : list (nat * option N);
  q_bytes : nat;
  q_max : nat;
  q_next : nat;       (** number of the next try_payload call *)
}.
Definition kafka_init (max : nat) : kafka := mkKafka [] 0 max 0.

(** valve_state, kafka.rs:303-309; true is Open *)
Definition k_valve_open (k : kafka) : bool := Nat.ltb (q_bytes k) (q_max k).

(** format!("{:X}", n) *)
Definition hex_digit (d : N) : N := (if d <? 10 then 48 + d else 55 + d)%N.
Fixpoint hex_loop (fuel : nat) (n : N) (acc : bytes) : bytes :=
  match fuel with
  | 0 => acc
  | S fuel => let acc' := hex_digit (n mod 16)%N :: acc in
              if (n / 16 =? 0)%N then acc' else hex_loop fuel (n / 16)%N acc'
  end.
Definition hex (n : N) : bytes := hex_loop (S (N.to_nat (N.log2 n))) n [].

Section Kafka.
(** the broker: the answer to each try_payload call *)
Variable ans : nat -> kanswer.
(** str::from_utf8 succeeds (not in /repo) *)
Variable utf8_ok : bytes -> bool.

(** deliver_raw, kafka.rs:313-331, with try_payload, kafka.rs:149-176: a metadata
    key that is not UTF-8 panics (None).  Simplification: message_bytes does not
    wrap. *)
Definition k_deliver (k : kafka) (r : raw) : option (kafka * list kcall) :=
  let rec := mkKrec (r_bytes r) (hex (r_order_by r)) (r_metadata r) (r_conn r) in
  let keys := match r_metadata r with Some m => map fst m | None => [] end in
  if forallb utf8_ok keys
  then Some (mkKafka (q_messages k ++ [(q_next k, r_conn r)]) (q_bytes k + List.length (r_bytes r)) (q_max k) (S (q_next k)), [CSend rec])
  else None.

(** acknowledge, kafka.rs:378-385 *)
Definition k_ack (c : option N) : list kcall := match c with Some c => [CAck c] | None => [] end.

(** the closure of await_inflight_messages, kafka.rs:396-454: published, failed,
    retried, ids to acknowledge, messages to retry *)
Fixpoint k_await (ms : list (nat * option N)) : N * N * N * list (option N) * list (owned * option N) :=
  match ms with
  | [] => (0, 0, 0, [], [])%N
  | (s, c) :: r =>
      let '(p, f, t, acks, retry) := k_await r in
      match ans s with
      | KOk => ((p + 1)%N, f, t, c :: acks, retry)
      | KProduction e m => if retryable e then (p, f, (t + 1)%N, acks, (m, c) :: retry)
                           else (p, (f + 1)%N, t, c :: acks, retry)
      | KOther _ | KCanceled => (p, (f + 1)%N, t, c :: acks, retry)
      end
  end.

(** FailedMessageWrapper::metadata, kafka.rs:233-246 *)
Definition k_metadata (m : owned) : option metadata :=
  match o_headers m with
  | Some h => Some (fold_left (fun acc kv => ainsert beqb (fst kv) (snd kv) acc) h [])
  | None => None
  end.

(** the closure of flush, kafka.rs:339-357: new messages, calls, ids of lost ones *)
Fixpoint k_resend (next : nat) (ms : list (owned * option N)) : list (nat * option N) * list kcall * list (option N) :=
  match ms with
  | [] => ([], [], [])
  | (m, c) :: r =>
      match o_payload m, o_key m with
      | Some p, Some key =>
          let '(new, calls, lost) := k_resend (S next) r in
          ((next, c) :: new, CSend (mkKrec p key (k_metadata m) c) :: calls, lost)
      | _, _ =>
          let '(new, calls, lost) := k_resend next r in
          (new, CRetryFailed :: calls, c :: lost)
      end
  end.

(** the loop of flush, kafka.rs:335-360.  [fuel] bounds the number of rounds; None:
    not finished. *)
Fixpoint k_loop (fuel : nat) (ms : list (nat * option N)) (next : nat) (lost : list (option N))
    : option (nat * list kcall * list (option N)) :=
  match ms with
  | [] => Some (next, [], lost)
  | _ =>
      match fuel with
      | 0 => None
      | S fuel =>
          let '(p, f, t, acks, retry) := k_await ms in
          let '(new, calls, lost') := k_resend next retry in
          match k_loop fuel new (next + List.length new) (lost ++ lost') with
          | Some (next', calls', lost'') => Some (next', CCount p f t :: flat_map k_ack acks ++ calls ++ calls', lost'')
          | None => None
          end
      end
  end.
(** flush, kafka.rs:333-365 *)
Definition k_flush (fuel : nat) (k : kafka) : option (kafka * list kcall) :=
  match k_loop fuel (q_messages k) (q_next k) [] with
  | Some (next, calls, lost) => Some (mkKafka [] 0 (q_max k) next, calls ++ flat_map k_ack lost)
  | None => None
  end.

(** a history of the sink: deliveries and completed flushes; None: a panic or a
    flush that does not finish *)
Inductive kop := KDeliver (r : raw) | KFlush (rounds : nat).
Fixpoint k_run (ops : list kop) (k : kafka) : option (kafka * list kcall) :=
  match ops with
  | [] => Some (k, [])
  | op :: rest =>
      match (match op with KDeliver r => k_deliver k r | KFlush n => k_flush n k end) with
      | Some (k', calls) => match k_run rest k' with
                            | Some (k'', calls') => Some (k'', calls ++ calls')
                            | None => None
                            end
      | None => None
      end
  end.
End Kafka.
