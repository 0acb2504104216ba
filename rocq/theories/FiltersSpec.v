(** * Specification of the filters. *)
From Verif Require Import Base TelemetryModel FlowModel FlowSpec FiltersModel.

Section Spec.
Context `{Q : QLib}.

(** ** Delay filter *)
(** Documented (delay_filter.rs:3-6): rejected iff the distance to the clock
    exceeds the tolerance; events without a timestamp are never rejected. *)
Definition timely (tol : Z) (ce : Z * event) : bool :=
  match e_timestamp (snd ce) with
  | Some ts => (Z.abs (ts - fst ce) <=? tol)%Z
  | None => true
  end.
(** the rule without its boundary *)
Definition strictly_timely (tol : Z) (ce : Z * event) : bool :=
  match e_timestamp (snd ce) with
  | Some ts => (Z.abs (ts - fst ce) <? tol)%Z
  | None => true
  end.
Definition at_boundary (tol : Z) (ce : Z * event) : Prop :=
  match e_timestamp (snd ce) with Some ts => Z.abs (ts - fst ce) = tol | None => False end.
(** no 64-bit overflow: the distance to the clock fits *)
Definition fits (ce : Z * event) : Prop :=
  match e_timestamp (snd ce) with Some ts => (Z.abs (ts - fst ce) < 2 ^ 63)%Z | None => True end.
Definition has_timestamp (e : event) : bool := match e_timestamp e with Some _ => true | None => false end.
(** the events of a given kind that passed / did not *)
Definition is_telemetry (e : event) : bool := match e with ETelemetry _ => true | _ => false end.
Definition is_log (e : event) : bool := match e with ELog _ => true | _ => false end.
Definition count {A} (p : A -> bool) (l : list A) : N := N.of_nat (List.length (filter p l)).

(** ** Flush boundary filter *)
(** events of timestamp [ts] *)
Definition at_ts (ts : Z) (e : event) : bool :=
  match e_timestamp e with Some t => Z.eqb t ts | None => false end.
Definition held (hs : list hold) : list event := flat_map h_events hs.
Definition flushes (l : list event) : nat := List.length (filter is_timer_flush l).
(** in timestamp order *)
Definition in_ts_order (l : list event) : Prop :=
  exists tss : list Z, map e_timestamp l = map Some tss /\ StronglySorted Z.le tss.

(** ** JSON encoding *)
(** the value of the first object that has the key *)
Fixpoint first_of (objs : list jobj) (k : string) : option jvalue :=
  match objs with
  | [] => None
  | o :: r => match alookup seqb k o with Some v => Some v | None => first_of r k end
  end.
Definition is_log_event (e : event) : bool := match e with ELog _ => true | _ => false end.
Definition jobj_ok (o : jobj) : Prop := NoDup (map fst o).

(** ** Programmable filter *)
(** the indices larger than 0 and than all before *)
Fixpoint records (top : N) (l : list N) : list N :=
  match l with
  | [] => []
  | i :: r => if (top <? i)%N then i :: records i r else records top r
  end.
Definition tick_succeeds (S : script) : Prop := forall st ms ls,
  exists logs metrics, snd (sc_call S st "tick"%string ms ls) = LDone logs metrics.
Definition tick_fails (S : script) : Prop := forall st ms ls logs metrics, snd (sc_call S st "tick"%string ms ls) <> LDone logs metrics.
End Spec.
