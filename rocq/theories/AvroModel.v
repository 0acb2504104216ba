(** * The avro source: payload decoding and acknowledgement.
    src/source/avro.rs, src/metric/ackbag.rs *)
From Verif Require Import Base TelemetryModel.
Open Scope list_scope. Open Scope nat_scope.

(** ** Payload decoding *)
(** struct Header, src/source/avro.rs:27-32 *)
Record header := mkHeader { h_version : N; h_control : N; h_id : N; h_order_by : N }.
(** Header::sync, src/source/avro.rs:99-101 *)
Definition h_sync (h : header) : bool := negb (N.land (h_control h) 1 =? 0)%N.

(** enum Payload, src/source/avro.rs:105-112; [APanic]: an unwrap of a short read *)
Inductive apayload :=
| AInvalid
| AValid (h : header) (metadata : option (list (list N * list N))) (blob : list N)
| APanic.

(** read_exact of [n] bytes from a cursor *)
Definition take (n : nat) (bs : list N) : option (list N * list N) :=
  if Nat.leb n (List.length bs) then Some (firstn n bs, skipn n bs) else None.
(** big-endian number of [n] bytes *)
Definition be_num (bs : list N) : N := fold_left (fun acc b => acc * 256 + b)%N bs 0%N.
Definition take_num (n : nat) (bs : list N) : option (N * list N) :=
  match take n bs with Some (x, r) => Some (be_num x, r) | None => None end.

Fixpoint beqb (a b : list N) : bool :=
  match a, b with
  | [], [] => true
  | x :: a, y :: b => andb (x =? y)%N (beqb a b)
  | _, _ => false
  end.

(** Header::from, src/source/avro.rs:79-91 *)
Definition header_from (bs : list N) : option (header * list N) :=
  match take_num 4 bs with
  | None => None
  | Some (version, bs) =>
  match take_num 4 bs with
  | None => None
  | Some (control, bs) =>
  match take_num 8 bs with
  | None => None
  | Some (id, bs) =>
  match take_num 8 bs with
  | None => None
  | Some (order_by, bs) => Some (mkHeader version control id order_by, bs)
  end end end end.

(** the key/value loop, src/source/avro.rs:128-136 *)
Fixpoint kv_loop (n : nat) (m : list (list N * list N)) (bs : list N) : option (list (list N * list N) * list N) :=
  match n with
  | 0 => Some (m, bs)
  | S n =>
      match take_num 1 bs with
      | None => None
      | Some (klen, bs) =>
      match take (N.to_nat klen) bs with
      | None => None
      | Some (key, bs) =>
      match take_num 2 bs with
      | None => None
      | Some (vlen, bs) =>
      match take (N.to_nat vlen) bs with
      | None => None
      | Some (val, bs) => kv_loop n (ainsert beqb key val m) bs
      end end end end
  end.

Section Payload.
(** serde_avro::de::Deserializer::from_container accepts (not in /repo) *)
Variable container_ok : list N -> bool.

(** Payload::from, src/source/avro.rs:116-162 *)
Definition payload_from (bs : list N) : apayload :=
  match header_from bs with
  | None => APanic
  | Some (h, bs) =>
      let metadata :=
        if (h_version h <? 2)%N then Some (None, bs)
        else match take_num 1 bs with
             | None => None
             | Some (num_kv, bs) =>
                 if (num_kv <? 1)%N then Some (None, bs)
                 else match kv_loop (N.to_nat num_kv) [] bs with
                      | None => None
                      | Some (m, bs) => Some (Some m, bs)
                      end
             end in
      match metadata with
      | None => APanic
      | Some (m, blob) => if container_ok blob then AValid h m blob else AInvalid
      end
  end.

(** the event sent for a valid payload, src/source/avro.rs:319-328 *)
Definition raw_of (conn : N) (bs : list N) : option raw :=
  match payload_from bs with
  | AValid h m blob => Some (mkRaw (h_order_by h) EncAvro blob m (Some conn))
  | _ => None
  end.
End Payload.

(** ** Acknowledgement.  Threads: one handler per connection, and the sinks. *)
(** where a connection handler is with its current payload *)
Inductive phase :=
| PReady       (** before the payload *)
| PPrepared    (** sync payload: prepare_wait done, avro.rs:315-317 *)
| PSent        (** sync payload: event sent, waiting in wait_for, avro.rs:331 *)
| PWoken       (** wait_for returned *)
| PRemoved.    (** entry removed, avro.rs:332; next the answer is written, avro.rs:210-221 *)

Inductive label :=
| LPrepare (c : N) (i : nat)
| LSend (c : N) (i : nat)
| LWake (c : N) (i : nat)
| LRemove (c : N) (i : nat)
| LAck (c : N) (i : nat)       (** the id of payload [i] is written to connection [c] *)
| LResolve (c : N) (i : nat)   (** a sink acknowledges one copy of the event of payload [i] *)
| LDrop (c : N) (i : nat).     (** a copy ends without acknowledgement *)

Record astate := mkAState {
  s_conn : N -> nat * phase;            (** index of the current payload, phase *)
  s_bag : N -> option nat;              (** the ack bag: acks received *)
  s_flight : list (N * nat);            (** copies of events not yet resolved *)
}.
Definition upd {V} (f : N -> V) (k : N) (v : V) : N -> V := fun x => if (x =? k)%N then v else f x.
Definition a_init : astate := mkAState (fun _ => (0, PReady)) (fun _ => None) [].

Section Ack.
(** whether payload [i] of connection [c] asks for an acknowledgement; payloads
    beyond the last are None *)
Variable prog : N -> nat -> option bool.
(** number of forwards of the source: copies of each event, util::send *)
Variable fan : nat.

Definition copies (c : N) (i : nat) : list (N * nat) := repeat (c, i) fan.

(** One step of any thread.  Every operation of SyncAckBag holds its mutex
    (ackbag.rs:44-72), so they are atomic.  Simplifications: saturating_add does
    not saturate; connection ids are unique. *)
Inductive astep : astate -> label -> astate -> Prop :=
| a_prepare s c i :
    s_conn s c = (i, PReady) -> prog c i = Some true ->
    astep s (LPrepare c i) (mkAState (upd (s_conn s) c (i, PPrepared)) (upd (s_bag s) c (Some 0)) (s_flight s))
| a_send_sync s c i :
    s_conn s c = (i, PPrepared) ->
    astep s (LSend c i) (mkAState (upd (s_conn s) c (i, PSent)) (s_bag s) (s_flight s ++ copies c i))
| a_send_async s c i :
    s_conn s c = (i, PReady) -> prog c i = Some false ->
    astep s (LSend c i) (mkAState (upd (s_conn s) c (S i, PReady)) (s_bag s) (s_flight s ++ copies c i))
| a_wake s c i :
    s_conn s c = (i, PSent) -> s_bag s c <> Some 0 ->
    astep s (LWake c i) (mkAState (upd (s_conn s) c (i, PWoken)) (s_bag s) (s_flight s))
| a_remove s c i :
    s_conn s c = (i, PWoken) ->
    astep s (LRemove c i) (mkAState (upd (s_conn s) c (i, PRemoved)) (upd (s_bag s) c None) (s_flight s))
| a_ack s c i :
    s_conn s c = (i, PRemoved) ->
    astep s (LAck c i) (mkAState (upd (s_conn s) c (S i, PReady)) (s_bag s) (s_flight s))
| a_resolve s c i f1 f2 :
    s_flight s = f1 ++ (c, i) :: f2 ->
    astep s (LResolve c i) (mkAState (s_conn s)
       (match s_bag s c with Some n => upd (s_bag s) c (Some (S n)) | None => s_bag s end) (f1 ++ f2))
| a_drop s c i f1 f2 :
    s_flight s = f1 ++ (c, i) :: f2 ->
    astep s (LDrop c i) (mkAState (s_conn s) (s_bag s) (f1 ++ f2)).

(** executions: the labels in order *)
Inductive aruns : list label -> astate -> Prop :=
| runs_init : aruns [] a_init
| runs_step tr s l s' : aruns tr s -> astep s l s' -> aruns (tr ++ [l]) s'.
End Ack.
