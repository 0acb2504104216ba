(** * Specification of event movement. *)
From Verif Require Import Base TelemetryModel FlowModel.

Inductive Forall3 {A B C} (P : A -> B -> C -> Prop) : list A -> list B -> list C -> Prop :=
| Forall3_nil : Forall3 P [] [] []
| Forall3_cons a b c l m n : P a b c -> Forall3 P l m n -> Forall3 P (a :: l) (b :: m) (c :: n).

Section Spec.
Context `{Q : QLib}.

(** ** Fan-out *)
(** The answers [a] settle one send: after some transient errors the event is
    accepted ([true]) or refused as full ([false]); [a'] are the answers left. *)
Inductive settles : list sanswer -> bool -> list sanswer -> Prop :=
| settles_ok k a : settles (repeat SOther k ++ SOk :: a) true a
| settles_full k a : settles (repeat SOther k ++ SFull :: a) false a
| settles_end k : settles (repeat SOther k) true [].

(** [kept vs evs]: the events whose verdict is [true] *)
Fixpoint kept (vs : list bool) (evs : list event) : list event :=
  match vs, evs with
  | true :: vs', e :: r => e :: kept vs' r
  | false :: vs', _ :: r => kept vs' r
  | _, _ => []
  end.
Inductive settles_all : list sanswer -> list bool -> list sanswer -> Prop :=
| sa_nil a : settles_all a [] a
| sa_cons a v a' vs a'' : settles a v a' -> settles_all a' vs a'' -> settles_all a (v :: vs) a''.

Definition refusals (vss : list (list bool)) : nat :=
  fold_right Nat.add 0 (map (fun vs => count_occ Bool.bool_dec vs false) vss).

(** ** Filters *)
(** what was taken from the queue *)
Definition received (polls : list (option event)) : list event :=
  flat_map (fun o => match o with Some e => [e] | None => [] end) polls.
Definition is_shutdown (e : event) : bool := match e with EShutdown => true | _ => false end.
Definition shutdowns (l : list event) : nat := List.length (filter is_shutdown l).

(** the events up to and including the k-th shutdown marker (all of them if
    there are fewer) *)
Fixpoint upto_shutdown (k : nat) (l : list event) : list event :=
  match l with
  | [] => []
  | EShutdown :: r => match k with
                      | O | 1 => [EShutdown]
                      | S k' => EShutdown :: upto_shutdown k' r
                      end
  | e :: r => e :: upto_shutdown k r
  end.

(** What each event contributes downstream when run through filter [F] from
    state [st]: shutdown markers are forwarded, a failure contributes its report. *)
Fixpoint outputs (F : filt) (st : f_state F) (l : list event) : list event :=
  match l with
  | [] => []
  | EShutdown :: r => EShutdown :: outputs F st r
  | e :: r => let '(st', pushed, err) := f_process F st e in
              match err with
              | None => pushed
              | Some fe => [fe]
              end ++ outputs F st' r
  end.

(** the state after processing the events of [l] *)
Fixpoint final (F : filt) (st : f_state F) (l : list event) : f_state F :=
  match l with
  | [] => st
  | EShutdown :: r => final F st r
  | e :: r => final F (fst (fst (f_process F st e))) r
  end.

Definition never_fails (F : filt) : Prop := forall st e, snd (f_process F st e) = None.
Definition fails_clean (F : filt) : Prop := forall st e fe,
  snd (f_process F st e) = Some fe -> snd (fst (f_process F st e)) = [].

(** [interleaves streams l]: [l] is an interleaving of the streams *)
Inductive interleaves : list (list event) -> list event -> Prop :=
| il_done ss : Forall (fun s => s = []) ss -> interleaves ss []
| il_take ss1 e s ss2 l : interleaves (ss1 ++ s :: ss2) l -> interleaves (ss1 ++ (e :: s) :: ss2) (e :: l).

(** a well-behaved upstream: events, then one final shutdown marker *)
Definition announces_once (s : list event) : Prop :=
  exists evs, s = evs ++ [EShutdown] /\ shutdowns evs = 0.

(** ** Sinks *)
Definition is_data (e : event) : bool :=
  match e with ETelemetry _ | ELog _ | ERaw _ => true | _ => false end.
Definition delivered (cs : list sink_call) : list event :=
  flat_map (fun c => match c with CDeliver e => [e] | _ => [] end) cs.
Definition timer_flushes (cs : list sink_call) : list N :=
  flat_map (fun c => match c with CFlushTimer i => [i] | _ => [] end) cs.
(** everything put on the sink's queue *)
Definition arrivals (ms : list sink_move) : list event :=
  flat_map (fun m => match m with Arrive e => [e] | _ => [] end) ms.
(** the event held by the run loop *)
Definition in_hand (s : sink_run) : list event :=
  match sr_hand s with Some e => [e] | None => [] end.
Definition flush_indices (l : list event) : list N :=
  flat_map (fun e => match e with ETimerFlush i => [i] | _ => [] end) l.
(** the indices that are larger than all earlier ones (and than 0) and hit the
    interval *)
Fixpoint due (fi : option N) (earlier : list N) (l : list N) : list N :=
  match l with
  | [] => []
  | i :: r =>
      (match fi with
       | None => []
       | Some k => if andb (forallb (fun j => (j <? i)%N) (0%N :: earlier)) (orb (k =? 0)%N (i mod k =? 0)%N)
                   then [i] else []
       end) ++ due fi (i :: earlier) r
  end.
End Spec.
