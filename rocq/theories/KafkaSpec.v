(** * Specification of the kafka sink. *)
From Verif Require Import Base TelemetryModel AvroModel KafkaModel.
Open Scope list_scope. Open Scope nat_scope.

(** observations of a list of calls *)
Definition sends (cs : list kcall) : list krec := flat_map (fun c => match c with CSend r => [r] | _ => [] end) cs.
Definition acks (cs : list kcall) : list N := flat_map (fun c => match c with CAck n => [n] | _ => [] end) cs.
Fixpoint published (cs : list kcall) : N := match cs with [] => 0 | CCount p _ _ :: r => p + published r | _ :: r => published r end%N.
Fixpoint failed (cs : list kcall) : N := match cs with [] => 0 | CCount _ f _ :: r => f + failed r | _ :: r => failed r end%N.
Fixpoint retried (cs : list kcall) : N := match cs with [] => 0 | CCount _ _ t :: r => t + retried r | _ :: r => retried r end%N.
Fixpoint retry_failed (cs : list kcall) : N := match cs with [] => 0 | CRetryFailed :: r => 1 + retry_failed r | _ :: r => retry_failed r end%N.

Definition somes {A} (l : list (option A)) : list A := flat_map (fun x => match x with Some y => [y] | None => [] end) l.

(** kinds of answers *)
Definition is_ok (a : kanswer) : bool := match a with KOk => true | _ => false end.
Definition is_retry (a : kanswer) : bool := match a with KProduction e _ => retryable e | _ => false end.
Definition is_fatal (a : kanswer) : bool := negb (is_ok a) && negb (is_retry a).
(** the errors that may go away by themselves: the ones kafka's protocol calls retriable, and the client's own timeout *)
Definition transient : list rderr :=
  [InvalidMessage; UnknownTopicOrPartition; LeaderNotAvailable; NotLeaderForPartition; RequestTimedOut; NetworkException;
   GroupLoadInProgress; GroupCoordinatorNotAvailable; NotCoordinatorForGroup; NotEnoughReplicas;
   NotEnoughReplicasAfterAppend; NotController; MessageTimedOut].
(** a message handed back without payload or key cannot be sent again *)
Definition incomplete (a : kanswer) : bool :=
  match a with
  | KProduction e m => retryable e && negb (match o_payload m, o_key m with Some _, Some _ => true | _, _ => false end)
  | _ => false
  end.
Definition count (f : kanswer -> bool) (ans : nat -> kanswer) (seqs : list nat) : N :=
  N.of_nat (List.length (filter (fun s => f (ans s)) seqs)).

(** two metadata with the same entries; none is the empty one *)
Definition meta_of (m : option metadata) : metadata := match m with Some l => l | None => [] end.
Definition same_meta (a b : option metadata) : Prop := forall k, alookup beqb k (meta_of a) = alookup beqb k (meta_of b).
Definition same_message (a b : krec) : Prop :=
  k_payload a = k_payload b /\ k_key a = k_key b /\ k_conn a = k_conn b /\ same_meta (k_meta a) (k_meta b).
(** the client library hands back the message that was sent *)
Definition gives_back (r : krec) (m : owned) : Prop :=
  o_payload m = Some (k_payload r) /\ o_key m = Some (k_key r) /\ meta_of (o_headers m) = meta_of (k_meta r).
Definition honest_client (ans : nat -> kanswer) (log : list krec) : Prop :=
  forall s r, nth_error log s = Some r ->
    match ans s with KProduction _ m | KOther m => gives_back r m | _ => True end.

(** the record of a raw event *)
Definition record_of (r : raw) (k : krec) : Prop :=
  k_payload k = r_bytes r /\ k_key k = hex (r_order_by r) /\ k_meta k = r_metadata r /\ k_conn k = r_conn r.
(** the metadata is a map *)
Definition meta_wf (m : option metadata) : Prop := NoDup (map fst (meta_of m)).

(** bytes delivered since the last flush *)
Fixpoint pending_bytes (acc : nat) (ops : list kop) : nat :=
  match ops with
  | [] => acc
  | KDeliver r :: rest => pending_bytes (acc + List.length (r_bytes r)) rest
  | KFlush _ :: rest => pending_bytes 0 rest
  end.

(** upper case hexadecimal text, read digit by digit: the place of a character in 0123456789ABCDEF *)
Definition hex_chars : bytes := [48; 49; 50; 51; 52; 53; 54; 55; 56; 57; 65; 66; 67; 68; 69; 70]%N.
Definition is_digit (c d : N) : Prop := nth_error hex_chars (N.to_nat d) = Some c.
(** [reads key n]: the text [key] denotes [n] *)
Inductive reads : bytes -> N -> Prop :=
| reads_one c d : is_digit c d -> reads [c] d
| reads_more key n c d : reads key n -> is_digit c d -> reads (key ++ [c]) (16 * n + d)%N.
