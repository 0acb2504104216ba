(** * One process forwarding to another: the native sink of the one, the native source of the other. *)
From Verif Require Import Base TelemetryModel TelemetrySpec ProtoModel FramingModel FramingSpec NativeModel NativeSpec FlowModel FlowSpec ShownSpec.
Open Scope string_scope. Open Scope list_scope. Open Scope nat_scope.

Section Spec.
Context {Q : QLib}.
(** what a native sink takes: points and lines (src/sink/native.rs:104-110; its deliver_raw is the default one, which drops the
    payload, src/sink/mod.rs:247-253) *)
Definition taken (e : event) : bool := match e with ETelemetry _ | ELog _ => true | _ => false end.
(** What a native sink does for a call of its loop (src/sink/mod.rs:112-191); timer, closed valve and shutdown all flush
    (native.rs:208-210). No connection is opened anew: see C50_sink_writes_batches for the loop of a flush. *)
Definition native_call (early : nat -> nat) (c : sink_call) (s : nsink) : option nsink :=
  match c with
  | CDeliver e => Some (if taken e then native_deliver e s else s)
  | _ => native_flush early [] s
  end.
Fixpoint native_calls (early : nat -> nat) (cs : list sink_call) (s : nsink) : option nsink :=
  match cs with
  | [] => Some s
  | c :: r => match native_call early c s with Some s' => native_calls early r s' | None => None end
  end.
(** a sink that just got its connection, which will take [left] bytes *)
Definition connected (tags : tagmap) (left : nat) : nsink := mkNSink tags [] 0 (Some (mkNConn [] left)) [].
(** the bytes on the connection *)
Definition sent (s : nsink) : list N := match n_stream s with Some k => k_got k | None => [] end.

(** the calls between two flushes: [rounds cs bs] says that [bs] are the lists of points and lines delivered before each flush *)
Inductive rounds : list sink_call -> list (list event) -> Prop :=
| rounds_none cs : Forall (fun c => flushing c = false) cs -> rounds cs []
| rounds_flush cs f r bs : Forall (fun c => flushing c = false) cs -> flushing f = true -> rounds r bs ->
    rounds (cs ++ f :: r) (filter taken (delivered cs) :: bs).

(** The events [es], and no others, are emitted by the other process: over a connection that takes enough bytes, whatever the
    buffers of the sink and in whatever pieces the other process reads what the sink wrote; the points of one flush
    before its lines. *)
Definition received utf8 (max : nat) (tags : tagmap) (cs : list sink_call) (es : list event) : Prop :=
  forall early cap now, (forall n, early n <= n) -> 0 < cap ->
  exists need, forall left, need <= left -> exists s, native_calls early cs (connected tags left) = Some s /\
  forall pieces, List.concat pieces = sent s ->
  exists batches evs, List.concat batches = es /\ native_stream utf8 cap max now (map AData pieces) = (evs, HStream EEof) /\
    Forall2 (arrives tags) (flat_map in_wire_order batches) evs.
End Spec.
