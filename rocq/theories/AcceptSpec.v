(** * What the claims about the accept loop speak of *)
From Verif Require Import Base TelemetryModel RuntimeModel AcceptModel.
Open Scope list_scope. Open Scope nat_scope.

(** the connections made to listener [i], in order: those that waited when the source
    started and those made since *)
Definition made (i : nat) (queues : list (list conn)) (ms : list move) : list conn :=
  nth i queues [] ++ flat_map (fun m => match m with Arrives j c => if j =? i then [c] else [] | _ => [] end) ms.
(** of what was taken off the queues: that of listener [i]; that which was accepted *)
Definition taken_from (i : nat) (l : list (nat * conn * bool)) : list conn :=
  flat_map (fun x : nat * conn * bool => if fst (fst x) =? i then [snd (fst x)] else []) l.
Definition accepted (l : list (nat * conn * bool)) : list conn :=
  flat_map (fun x : nat * conn * bool => if snd x then [snd (fst x)] else []) l.
(** the loop is in poll and there is nothing for poll to report *)
Definition idle (s : acceptor) : Prop := ac_phase s = AtPoll /\ forall x, waiting s x = false.
(** what is queued on listener [i] *)
Definition queued (i : nat) (s : acceptor) : list conn :=
  match nth_error (ac_socks s) i with Some k => so_queue k | None => [] end.
(** no accept ever answered with an error other than those the loop retries *)
Definition no_failure (ms : list move) : Prop := ~ In (Accepts Failed) ms.
(** no handler panics, neither before nor during the shutdown *)
Definition no_crash (ms : list move) : Prop :=
  forall m, In m ms -> match m with Crashes _ => False | Next ends => forall id, ends id = true | _ => True end.
(** a move of the loop, not of the world *)
Definition of_loop (m : move) : Prop := match m with Polls _ | Next _ | Accepts _ => True | _ => False end.
(** the loop has neither returned nor panicked *)
Definition running (s : acceptor) : Prop := ac_phase s <> AtEnd /\ ac_phase s <> AtPanic.
