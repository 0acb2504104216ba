(** * What a connection of the avro and native sources is to do. *)
From Verif Require Import Base TelemetryModel FramingModel AvroModel AvroSpec StreamModel.
Open Scope list_scope. Open Scope nat_scope.

Definition prefix {A} (a b : list A) : Prop := exists c, b = a ++ c.

(** how many bytes a script of writes takes *)
Definition taken (ws : list wres) : nat :=
  fold_right (fun w n => match w with WOk k => k + n | _ => n end) 0 ws.
(** how many writes take something *)
Definition reads (ws : list wres) : nat :=
  List.length (filter (fun w => match w with WOk (S _) => true | _ => false end) ws).
(** the peer does not read *)
Definition stuck (ws : list wres) : Prop := Forall (fun w => w = WBlock \/ w = WIntr \/ w = WOk 0) ws.

(** the payloads carried by a connection, however they are polled for *)
Definition carried (cap max : nat) (sc : list arrival) : list (list N) := fst (handle_stream cap max sc).

(** the shutdown signal is among what the polls report *)
Definition signalled (ps : list poll) : Prop := exists l, In (PEvents l) ps /\ In TSystem l.
(** the number of events about the connection *)
Definition stream_events (ps : list poll) : nat :=
  fold_right (fun p n => match p with
                         | PEvents l => List.length (filter (fun t => match t with TStream => true | TSystem => false end) l) + n
                         | PError => n end) 0 ps.
(** how often the connection runs dry *)
Definition dry (sc : list arrival) : nat :=
  List.length (filter (fun a => match a with ABlock => true | _ => false end) sc).

Section Verdicts.
Context {E : Type}.
Variable serve : list N -> @verdict E.
Definition accepted (p : list N) : Prop := exists evs ans, serve p = VAccept evs ans.
(** what is sent on for a payload *)
Definition sent_for (p : list N) : list E :=
  match serve p with VAccept evs _ => evs | VPanic evs => evs | VRefuse => [] end.
(** what is to be answered *)
Definition answer_for (p : list N) : list N := match serve p with VAccept _ a => a | _ => [] end.
End Verdicts.

(** an avro payload as a client makes it *)
Record client_payload := mkClient { c_head : header; c_kvs : list (list N * list N); c_blob : list N }.
Definition c_bytes (c : client_payload) : list N := enc_payload (c_head c) (c_kvs c) (c_blob c).
(** bit 0 of the control field asks for an acknowledgement: the id in eight bytes *)
Definition c_answer (c : client_payload) : list N :=
  if N.odd (h_control (c_head c)) then be_enc 8 (h_id (c_head c)) else [].
