(** * Length-prefixed framing: src/source/nonblocking.rs *)
From Verif Require Import Base.
Open Scope list_scope. Open Scope nat_scope.

(** What the socket does, call by call: bytes arrive, or there is none now
    (WouldBlock), or a read fails.  After the last entry the peer has closed the
    connection and every read returns Ok(0). *)
Inductive arrival :=
| AData (bs : list N)      (** available bytes; one read takes as many as fit *)
| ABlock                   (** io::ErrorKind::WouldBlock *)
| AIntr                    (** io::ErrorKind::Interrupted *)
| AFail.                   (** any other io::Error *)

Inductive rres := ROk (bs : list N) | RBlock | RIntr | RFail.

(** read on the socket into a slice of [n] bytes *)
Fixpoint sock_read (n : nat) (sc : list arrival) : rres * list arrival :=
  match sc with
  | [] => (ROk [], [])
  | ABlock :: r => (RBlock, r)
  | AIntr :: r => (RIntr, r)
  | AFail :: r => (RFail, r)
  | AData [] :: r => sock_read n r
  | AData bs :: r => (ROk (firstn n bs), match skipn n bs with [] => r | bs' => AData bs' :: r end)
  end.

(** std::io::BufReader::read (not in /repo) with a buffer of [cap] bytes: a large
    read into an empty buffer goes to the socket directly, otherwise the buffer is
    filled when empty and the slice is copied from it. *)
Definition buf_read (cap n : nat) (buf : list N) (sc : list arrival) : rres * list N * list arrival :=
  match buf with
  | [] => if Nat.leb cap n then let '(r, sc') := sock_read n sc in (r, [], sc')
          else match sock_read cap sc with
               | (ROk bs, sc') => (ROk (firstn n bs), skipn n bs, sc')
               | (r, sc') => (r, [], sc')
               end
  | _ => (ROk (firstn n buf), skipn n buf, sc)
  end.

(** std::io::Read::read_exact (not in /repo): [want] bytes are still missing,
    [got] are read.  On an error the bytes already taken are gone. *)
Inductive xres := XOk (bs : list N) | XEof | XBlock | XFail.
Fixpoint read_exact (fuel cap want : nat) (got buf : list N) (sc : list arrival) : xres * list N * list arrival :=
  match fuel with
  | 0 => (XFail, buf, sc)
  | S fuel =>
      match want with
      | 0 => (XOk got, buf, sc)
      | _ => match buf_read cap want buf sc with
             | (ROk [], buf', sc') => (XEof, buf', sc')
             | (ROk bs, buf', sc') => read_exact fuel cap (want - List.length bs) (got ++ bs) buf' sc'
             | (RIntr, buf', sc') => read_exact fuel cap want got buf' sc'
             | (RBlock, buf', sc') => (XBlock, buf', sc')
             | (RFail, buf', sc') => (XFail, buf', sc')
             end
      end
  end.

(** PayloadErr, src/source/nonblocking.rs:38-50 (Protocol never arises here) *)
Inductive perr := EEof | EWouldBlock | EIo | ETooLarge.

(** struct BufferedPayload, src/source/nonblocking.rs:73-90 *)
Record reader := mkReader {
  b_size : option nat;      (** payload_size *)
  b_pos : nat;              (** payload_pos *)
  b_payload : list N;
  b_buf : list N;           (** bytes staged in the BufReader *)
  b_sock : list arrival;
}.
Definition reader_new (sc : list arrival) : reader := mkReader None 0 [] [] sc.

(** big-endian number *)
Definition be_dec (bs : list N) : nat := N.to_nat (fold_left (fun acc b => (acc * 256 + b)%N) bs 0%N).

(** enough steps for every loop over this reader *)
Definition sock_size (sc : list arrival) : nat :=
  fold_right (fun a n => match a with AData bs => List.length bs + n | _ => 1 + n end) 0 sc.
Definition reader_size (r : reader) : nat := List.length (b_buf r) + sock_size (b_sock r).

(** read_length, src/source/nonblocking.rs:132-137 *)
Definition read_length (cap : nat) (r : reader) : option perr * reader :=
  match b_size r with
  | Some _ => (None, r)
  | None =>
      match read_exact (5 + reader_size r) cap 4 [] (b_buf r) (b_sock r) with
      | (XOk bs, buf', sc') => (None, mkReader (Some (be_dec bs)) (b_pos r) (b_payload r) buf' sc')
      | (XEof, buf', sc') => (Some EEof, mkReader None (b_pos r) (b_payload r) buf' sc')
      | (XBlock, buf', sc') => (Some EWouldBlock, mkReader None (b_pos r) (b_payload r) buf' sc')
      | (XFail, buf', sc') => (Some EIo, mkReader None (b_pos r) (b_payload r) buf' sc')
      end
  end.

(** Vec::resize(n, 0) *)
Definition resize0 (n : nat) (l : list N) : list N := firstn n l ++ repeat 0%N (n - List.length l).
(** the slice from [pos] is overwritten by the bytes read *)
Definition overwrite (pos : nat) (bs l : list N) : list N :=
  firstn pos l ++ bs ++ skipn (pos + List.length bs) l.

(** the loop of read_payload, src/source/nonblocking.rs:152-176 *)
Fixpoint payload_loop (fuel cap size : nat) (r : reader) : option perr * reader :=
  match fuel with
  | 0 => (Some EIo, r)
  | S fuel =>
      match buf_read cap (size - b_pos r) (b_buf r) (b_sock r) with
      | (ROk [], buf', sc') => (Some EEof, mkReader (b_size r) (b_pos r) (b_payload r) buf' sc')
      | (ROk bs, buf', sc') =>
          let pl := overwrite (b_pos r) bs (b_payload r) in
          if Nat.eqb (b_pos r + List.length bs) size
          then (None, mkReader None 0 pl buf' sc')
          else payload_loop fuel cap size (mkReader (b_size r) (b_pos r + List.length bs) pl buf' sc')
      | (RBlock, buf', sc') => (Some EWouldBlock, mkReader (b_size r) (b_pos r) (b_payload r) buf' sc')
      | (_, buf', sc') => (Some EIo, mkReader (b_size r) (b_pos r) (b_payload r) buf' sc')
      end
  end.
(** read_payload, src/source/nonblocking.rs:142-177 *)
Definition read_payload (cap size : nat) (r : reader) : option perr * reader :=
  let pl := if Nat.eqb (List.length (b_payload r)) size then b_payload r else resize0 size (b_payload r) in
  payload_loop (1 + reader_size r) cap size (mkReader (b_size r) (b_pos r) pl (b_buf r) (b_sock r)).

(** read, src/source/nonblocking.rs:111-127 *)
Definition read (cap max : nat) (r : reader) : (list N + perr) * reader :=
  match read_length cap r with
  | (Some e, r') => (inr e, r')
  | (None, r') =>
      match b_size r' with
      | None => (inr EIo, r')     (* unreachable: read_length sets it *)
      | Some size =>
          if Nat.ltb max size then (inr ETooLarge, r')
          else match read_payload cap size r' with
               | (Some e, r'') => (inr e, r'')
               | (None, r'') => (inl (b_payload r''), mkReader (b_size r'') (b_pos r'') [] (b_buf r'') (b_sock r''))
               end
      end
  end.

(** The stream handlers call read until WouldBlock, wait for the next poll event
    and read again; any other error ends the connection: src/source/native.rs:72-123,
    src/source/avro.rs:178-256.  Result: the payloads handed on and how the stream
    ended.  Simplification: every payload parses and no shutdown arrives. *)
Fixpoint handle (fuel cap max : nat) (r : reader) : list (list N) * perr :=
  match fuel with
  | 0 => ([], EIo)
  | S fuel =>
      match read cap max r with
      | (inl p, r') => let '(ps, e) := handle fuel cap max r' in (p :: ps, e)
      | (inr EWouldBlock, r') => handle fuel cap max r'
      | (inr e, _) => ([], e)
      end
  end.
Definition handle_stream (cap max : nat) (sc : list arrival) : list (list N) * perr :=
  handle (1 + sock_size sc) cap max (reader_new sc).
