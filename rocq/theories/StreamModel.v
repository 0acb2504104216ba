(** * The handler of one connection of the avro and native sources, with its polls and
    answers: src/source/avro.rs, src/source/native.rs, src/source/nonblocking.rs *)
From Verif Require Import Base TelemetryModel FramingModel AvroModel ProtoModel NativeModel.
Open Scope list_scope. Open Scope nat_scope.

(** What write on the socket returns, call by call.  [WOk n]: it took the first [n] bytes
    of the slice. *)
Inductive wres := WOk (n : nat) | WBlock | WIntr | WFail.
(** [WSpins]: the loop is still going when the script is used up *)
Inductive wend := WDone | WFailed | WSpins.
(** write_all, src/source/nonblocking.rs:9-33: how it ended, the rest of the script and
    the bytes that went out *)
Fixpoint write_all (ws : list wres) (bs : list N) : wend * list wres * list N :=
  match bs with
  | [] => (WDone, ws, [])
  | _ => match ws with
         | [] => (WSpins, [], [])
         | WOk n :: r => let '(e, r', out) := write_all r (skipn n bs) in (e, r', firstn n bs ++ out)
         | WBlock :: r | WIntr :: r => write_all r bs
         | WFail :: r => (WFailed, r, [])
         end
  end.

Section Session.
Context {E : Type}.
(** What becomes of a payload: it is refused; the thread panics over it after sending
    some events; it is accepted, its events are sent, and these bytes are to be answered.
    Simplification: the wait for an acknowledgement (C34, C35) returns. *)
Inductive verdict := VRefuse | VPanic (evs : list E) | VAccept (evs : list E) (answer : list N).
Variable serve : list N -> verdict.
(** capacity of the BufReader and the limit on payloads, src/source/avro.rs:177 *)
Variables cap max : nat.

Inductive token := TSystem | TStream.
(** what poll returns *)
Inductive poll := PEvents (l : list token) | PError.

Record session := mkSession {
  se_reader : reader;
  se_writes : list wres;
  se_wire : list N;              (** bytes written back *)
  se_sent : list E;              (** events sent on *)
  se_read : list (list N);       (** payloads read; kept for the statements *)
  se_ok : N; se_refused : N;     (** the counters of handled and refused payloads *)
  se_io : N;                     (** the counter of reads that failed; the avro source only *)
}.
(** streaming; not streaming any more; panicked; in write_all for good *)
Inductive going := GGo | GClosed | GPanic | GSpins.
Definition session_start (sc : list arrival) (ws : list wres) : session := mkSession (reader_new sc) ws [] [] [] 0 0 0.
Definition with_reader (s : session) (r : reader) (io : N) : session :=
  mkSession r (se_writes s) (se_wire s) (se_sent s) (se_read s) (se_ok s) (se_refused s) (se_io s + io).

(** the inner loop, src/source/avro.rs:190-249, src/source/native.rs:84-117.  An answer
    that cannot be written panics (avro.rs:216-219); the native source has none. *)
Fixpoint drain (fuel : nat) (s : session) : going * session :=
  match fuel with
  | 0 => (GGo, s)
  | S fuel =>
      match read cap max (se_reader s) with
      | (inl p, r) =>
          match serve p with
          | VRefuse => (GClosed, mkSession r (se_writes s) (se_wire s) (se_sent s) (se_read s ++ [p]) (se_ok s) (se_refused s + 1) (se_io s))
          | VPanic evs => (GPanic, mkSession r (se_writes s) (se_wire s) (se_sent s ++ evs) (se_read s ++ [p]) (se_ok s) (se_refused s) (se_io s))
          | VAccept evs answer =>
              let '(e, ws, out) := write_all (se_writes s) answer in
              let s' := mkSession r ws (se_wire s ++ out) (se_sent s ++ evs) (se_read s ++ [p]) (se_ok s + 1) (se_refused s) (se_io s) in
              match e with WDone => drain fuel s' | WFailed => (GPanic, s') | WSpins => (GSpins, s') end
          end
      | (inr EWouldBlock, r) => (GGo, with_reader s r 0)
      | (inr EEof, r) => (GClosed, with_reader s r 0)
      | (inr _, r) => (GClosed, with_reader s r 1)
      end
  end.
(** for event in events, src/source/avro.rs:183-252, src/source/native.rs:77-120.  Once streaming is false the later
    events of the same poll do nothing. *)
Fixpoint poll_events (l : list token) (s : session) : going * session :=
  match l with
  | [] => (GGo, s)
  | TSystem :: _ => (GClosed, s)
  | TStream :: r => match drain (1 + reader_size (se_reader s)) s with
                    | (GGo, s') => poll_events r s'
                    | res => res
                    end
  end.
(** handle_stream, src/source/avro.rs:169-262, src/source/native.rs:64-130; when the polls
    are used up it waits in poll *)
Fixpoint session_run (ps : list poll) (s : session) : going * session :=
  match ps with
  | [] => (GGo, s)
  | PError :: _ => (GPanic, s)
  | PEvents l :: r => match poll_events l s with (GGo, s') => session_run r s' | res => res end
  end.
End Session.

(** handle_avro_payload, src/source/avro.rs:302-343, and the answer, 209-221 *)
Definition avro_serve (container_ok : list N -> bool) (conn : N) (bs : list N) : verdict :=
  match payload_from container_ok bs with
  | APanic => VPanic []
  | AInvalid => VRefuse
  | AValid h m blob =>
      VAccept [mkRaw (h_order_by h) EncAvro blob m (Some conn)]
              (if h_sync h then map (fun k => (h_id h / 256 ^ N.of_nat k) mod 256)%N [7; 6; 5; 4; 3; 2; 1; 0] else [])
  end.
(** handle_stream_payload, src/source/native.rs:134-203 *)
Definition native_serve `{Q : QLib} (utf8 : list N -> bool) (now : Z) (bs : list N) : verdict :=
  match handle_payload utf8 now bs with
  | (evs, NOk) => VAccept evs []
  | (evs, NPanic) => VPanic evs
  | (_, NBad) => VRefuse
  end.
