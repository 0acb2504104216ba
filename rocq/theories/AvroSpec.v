(** * Specification of the avro wire format and of acknowledgement. *)
From Verif Require Import Base AvroModel.
Open Scope list_scope. Open Scope nat_scope.

(** the low [k] bytes of a number, most significant first *)
Fixpoint be_enc (k : nat) (n : N) : list N :=
  match k with
  | 0 => []
  | S k => ((n / 256 ^ N.of_nat k) mod 256)%N :: be_enc k n
  end.
Definition enc_kv (kv : list N * list N) : list N :=
  be_enc 1 (N.of_nat (List.length (fst kv))) ++ fst kv ++ be_enc 2 (N.of_nat (List.length (snd kv))) ++ snd kv.
(** header and metadata, as in the diagram of src/source/avro.rs:39-61 *)
Definition enc_head (h : header) (kvs : list (list N * list N)) : list N :=
  be_enc 4 (h_version h) ++ be_enc 4 (h_control h) ++ be_enc 8 (h_id h) ++ be_enc 8 (h_order_by h) ++
  (if (h_version h <? 2)%N then []
   else be_enc 1 (N.of_nat (List.length kvs)) ++ List.concat (map enc_kv kvs)).
Definition enc_payload (h : header) (kvs : list (list N * list N)) (blob : list N) : list N := enc_head h kvs ++ blob.

(** the wire's limits *)
Definition head_ok (h : header) (kvs : list (list N * list N)) : Prop :=
  (h_version h < 2 ^ 32 /\ h_control h < 2 ^ 32 /\ h_id h < 2 ^ 64 /\ h_order_by h < 2 ^ 64)%N /\
  List.length kvs < 256 /\
  Forall (fun kv => List.length (fst kv) < 256 /\ (N.of_nat (List.length (snd kv)) < 65536)%N) kvs /\
  ((h_version h < 2)%N -> kvs = []).

(** the last value written for a key *)
Definition last_value (k : list N) (kvs : list (list N * list N)) (v : option (list N)) : Prop :=
  match v with
  | None => forall x, ~ In (k, x) kvs
  | Some x => exists l1 l2, kvs = l1 ++ (k, x) :: l2 /\ forall y, ~ In (k, y) l2
  end.
