(** * What the claims about the statsd source's sockets speak of *)
From Verif Require Import Base TelemetryModel ParseModel Utf8 RuntimeModel AcceptModel DatagramModel.
Open Scope string_scope. Open Scope list_scope. Open Scope nat_scope.
Section Spec.
Context `{Q : QLib}.
Variable pf : string -> option f64.
Variable cfg : statsd_cfg.
Variable now : Z.
Variable base : telemetry.

(** the datagrams that came to socket [i] *)
Definition came (i : nat) (queues : list (list datagram)) (ms : list umove) : list datagram :=
  nth i queues [] ++ flat_map (fun m => match m with UArrives j d => if j =? i then [d] else [] | _ => [] end) ms.
(** those of socket [i] among what was received *)
Definition read_from (i : nat) (l : list (nat * datagram)) : list datagram :=
  flat_map (fun x : nat * datagram => if fst x =? i then [snd x] else []) l.
Definition uqueued (i : nat) (s : udp) : list datagram := match nth_error (ud_socks s) i with Some k => so_queue k | None => [] end.
Definition uidle (s : udp) : Prop := ud_phase s = UPoll /\ forall x, uwaiting s x = false.
Definition no_ufailure (ms : list umove) : Prop := ~ In (UReceives UFailed) ms.
(** a move of the loop, not of the world *)
Definition of_uloop (m : umove) : Prop := match m with UArrives _ _ | USignalled => False | _ => True end.

(** The texts of the datagrams of one call: those that are not UTF-8 are skipped. *)
Definition texts (call : list (nat * datagram)) : list string :=
  flat_map (fun x : nat * datagram => if utf8 (received (snd x)) then [text (received (snd x))] else []) call.
(** What one call of handle_datagrams is to do with them: source_loop of ParseModel.v,
    about which C27-C30 speak. *)
Definition call_sends (call : list (nat * datagram)) : option (list telemetry * list telemetry * N * N) :=
  source_loop (parse_statsd pf cfg now base) (texts call) [].
(** all calls together: points sent, good and bad packets *)
Fixpoint calls_send (calls : list (list (nat * datagram))) : option (list telemetry * N * N) :=
  match calls with
  | [] => Some ([], 0%N, 0%N)
  | c :: r => match call_sends c, calls_send r with
              | Some (sent, _, g, b), Some (sent', g', b') => Some (sent ++ sent', (g + g')%N, (b + b')%N)
              | _, _ => None
              end
  end.
End Spec.
(** the texts of datagrams as they were sent, however long *)
Definition whole_texts (call : list (nat * datagram)) : list string :=
  flat_map (fun x : nat * datagram => if utf8 (snd x) then [text (snd x)] else []) call.
