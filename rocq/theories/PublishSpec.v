(** * What an acknowledgement means to an avro client whose payloads go to kafka. *)
From Verif Require Import Base TelemetryModel AvroModel KafkaModel KafkaSpec PublishModel.
Open Scope list_scope. Open Scope nat_scope.

(** the records given to the broker, in order: the n-th is answered by [ans n] *)
Definition given (tr : list plabel) : list krec :=
  flat_map (fun l => match l with PDeliver r | PCall (CSend r) => [r] | _ => [] end) tr.
(** [r] is the record of the payload [bs] of connection [c]: its avro bytes, its key in hexadecimal, its metadata *)
Definition carries (container_ok : list N -> bool) (c : N) (bs : list N) (r : krec) : Prop :=
  exists h m, payload_from container_ok bs = AValid h m (k_payload r) /\ k_key r = hex (h_order_by h) /\
    same_meta m (k_meta r) /\ k_conn r = Some c.
(** every payload of the connection asks for an answer *)
Definition always_asks (container_ok : list N -> bool) (l : list (list N)) : Prop :=
  forall bs h m blob, In bs l -> payload_from container_ok bs = AValid h m blob -> h_sync h = true.
(** doubling from 5 ms up to 250 ms *)
Definition nap (k : nat) : N := N.min 250 (5 * 2 ^ N.of_nat k).
(** the metadata keys of every payload are text *)
Definition keys_are_text (container_ok : list N -> bool) (utf8_ok : bytes -> bool) (payloads : N -> list (list N)) : Prop :=
  forall c bs h m blob, In bs (payloads c) -> payload_from container_ok bs = AValid h (Some m) blob -> Forall (fun kv => utf8_ok (fst kv) = true) m.
(** payload [i] of the connection is valid and asks for an answer *)
Definition wants_answer (container_ok : list N -> bool) (l : list (list N)) (i : nat) : Prop :=
  exists bs h m blob, nth_error l i = Some bs /\ payload_from container_ok bs = AValid h m blob /\ h_sync h = true.
