(** * How events move: util::send, the filter run loop, the sink run loop. *)
From Verif Require Import Base TelemetryModel.

Section Flow.
Context `{Q : QLib}.

(** ** src/util.rs:28-68, send *)

(** One answer of [hopper::Sender::send]: accepted; [Error::Full]; any other
    error, which hands the event back. *)
Inductive sanswer := SOk | SFull | SOther.

(** A forward: what it has accepted so far, and the answers it is going to give.
    When the list of answers is used up it accepts; so transient errors occur
    finitely often (the code loops for ever otherwise). *)
Record chan := mkChan { c_queue : list event; c_answers : list sanswer }.

(** The retry loop for one forward, src/util.rs:38-53 and 56-67. The number is
    the increment of UTIL_SEND_HOPPER_ERROR_FULL. *)
Fixpoint chan_send_loop (q : list event) (ans : list sanswer) (ev : event) : chan * N :=
  match ans with
  | [] => (mkChan (q ++ [ev]) [], 0%N)
  | SOk :: r => (mkChan (q ++ [ev]) r, 0%N)
  | SFull :: r => (mkChan q r, 1%N)
  | SOther :: r => chan_send_loop q r ev
  end.
Definition chan_send (c : chan) (ev : event) : chan * N := chan_send_loop (c_queue c) (c_answers c) ev.

(** for chan in &mut chans[1..], src/util.rs:36 *)
Fixpoint send_rest (cs : list chan) (ev : event) : list chan * N :=
  match cs with
  | [] => ([], 0%N)
  | c :: r => let '(c', d) := chan_send c ev in
              let '(r', e) := send_rest r ev in (c' :: r', (d + e)%N)
  end.

(** send, src/util.rs:28-68: clones to all forwards but the first, then the
    first. *)
Definition send (cs : list chan) (ev : event) : list chan * N :=
  match cs with
  | [] => ([], 0%N)
  | c0 :: r =>
      let '(r', d) := send_rest r ev in
      let '(c0', e) := chan_send c0 ev in
      (c0' :: r', (d + e)%N)
  end.

Fixpoint send_all (cs : list chan) (evs : list event) : list chan * N :=
  match evs with
  | [] => (cs, 0%N)
  | ev :: r => let '(cs', d) := send cs ev in
               let '(cs'', e) := send_all cs' r in (cs'', (d + e)%N)
  end.

(** ** src/filter/mod.rs:48-115, Filter::process and Filter::run *)

(** A filter: [process] returns the new state, the events it pushed on [res] and,
    on Err, the event inside the FilterError.  Simplification: [process] may only
    append to [res]; all four filters of src/filter/ only push or append. *)
Record filt := mkFilt {
  f_state : Type;
  f_process : f_state -> event -> f_state * list event * option event;
}.

Record fres (St : Type) := mkFres {
  fr_sent : list event;       (** events passed to util::send, in order *)
  fr_stopped : bool;          (** run has returned *)
  fr_rest : list (option event); (** polls not made *)
  fr_state : St;
  fr_buffer : list event;     (** what is left in [events] *)
}.
Arguments fr_sent {St}. Arguments fr_stopped {St}. Arguments fr_rest {St}.
Arguments fr_state {St}. Arguments fr_buffer {St}. Arguments mkFres {St}.

(** Filter::run, src/filter/mod.rs:69-114. [polls] are the answers of
    recv.next(), None being an empty poll; [n] is sources.len(); [shut] is
    total_shutdowns; [buf] is [events].  The pause at the loop head
    (time::delay) has no effect on the values and is left out here. *)
Fixpoint f_run (F : filt) (n : nat) (polls : list (option event)) (st : f_state F)
         (buf : list event) (shut : nat) : fres (f_state F) :=
  match polls with
  | [] => mkFres [] false [] st buf
  | None :: r => f_run F n r st buf shut
  | Some EShutdown :: r =>
      let shut' := shut + 1 in
      if n <=? shut' then mkFres [EShutdown] true r st buf
      else
        let res := f_run F n r st buf shut' in
        mkFres (EShutdown :: fr_sent res) (fr_stopped res) (fr_rest res) (fr_state res) (fr_buffer res)
  | Some ev :: r =>
      let '(st', pushed, err) := f_process F st ev in
      let buf' := buf ++ pushed in
      match err with
      | None =>
          let res := f_run F n r st' [] shut in
          mkFres (buf' ++ fr_sent res) (fr_stopped res) (fr_rest res) (fr_state res) (fr_buffer res)
      | Some fe =>
          let res := f_run F n r st' buf' shut in
          mkFres (fe :: fr_sent res) (fr_stopped res) (fr_rest res) (fr_state res) (fr_buffer res)
      end
  end.

(** ** src/sink/mod.rs:80-196, RunnableSink::consume *)

(** What a sink is asked to do. *)
Inductive sink_call :=
| CDeliver (ev : event)       (** deliver, deliver_line or deliver_raw *)
| CFlushTimer (idx : N)       (** flush because of TimerFlush(idx) *)
| CFlushValve                 (** flush because the valve is closed *)
| CShutdown.

(** Moves: an event is put on the sink's queue; the run loop polls the queue; the
    sink answers valve_state() in the inner loop. *)
Inductive sink_move := Arrive (ev : event) | Poll | ValveSays (is_open : bool).

Record sink_run := mkSinkRun {
  sr_queue : list event;    (** the hopper queue *)
  sr_hand : option event;   (** the event of the inner loop, None in the outer loop *)
  sr_last : N;              (** last_flush_idx *)
  sr_shut : nat;            (** total_shutdowns *)
  sr_stopped : bool;
  sr_calls : list sink_call;
}.
Definition sink_start : sink_run := mkSinkRun [] None 0 0 false [].

(** One turn of the inner loop, src/sink/mod.rs:112-191, with the valve's
    answer. [n] is sources.len(), [fi] is flush_interval(). *)
Definition sink_inner (n : nat) (fi : option N) (s : sink_run) (ev : event) (is_open : bool) : sink_run :=
  if is_open then
    match ev with
    | ETimerFlush idx =>
        if (sr_last s <? idx)%N then
          let fl := match fi with
                    | Some k => if orb (k =? 0)%N (idx mod k =? 0)%N then [CFlushTimer idx] else []
                    | None => []
                    end in
          mkSinkRun (sr_queue s) None idx (sr_shut s) false (sr_calls s ++ fl)
        else mkSinkRun (sr_queue s) None (sr_last s) (sr_shut s) false (sr_calls s)
    | ETelemetry _ | ELog _ | ERaw _ =>
        mkSinkRun (sr_queue s) None (sr_last s) (sr_shut s) false (sr_calls s ++ [CDeliver ev])
    | EShutdown =>
        let k := sr_shut s + 1 in
        if n <=? k then mkSinkRun (sr_queue s) None (sr_last s) k true (sr_calls s ++ [CShutdown])
        else (* no break: the inner loop turns again on the same event *)
          mkSinkRun (sr_queue s) (Some ev) (sr_last s) k false (sr_calls s)
    end
  else mkSinkRun (sr_queue s) (Some ev) (sr_last s) (sr_shut s) false (sr_calls s ++ [CFlushValve]).

(** The outer loop, src/sink/mod.rs:91-100.  Moves that do not fit the current
    loop are ignored (the thread is elsewhere). *)
Definition sink_step (n : nat) (fi : option N) (s : sink_run) (m : sink_move) : sink_run :=
  match m with
  | Arrive ev =>
      mkSinkRun (sr_queue s ++ [ev]) (sr_hand s) (sr_last s) (sr_shut s) (sr_stopped s) (sr_calls s)
  | Poll =>
      if sr_stopped s then s
      else match sr_hand s, sr_queue s with
           | None, ev :: q => mkSinkRun q (Some ev) (sr_last s) (sr_shut s) false (sr_calls s)
           | _, _ => s
           end
  | ValveSays o =>
      if sr_stopped s then s
      else match sr_hand s with
           | Some ev => sink_inner n fi s ev o
           | None => s
           end
  end.
Definition sink_exec (n : nat) (fi : option N) (ms : list sink_move) (s : sink_run) : sink_run :=
  fold_left (sink_step n fi) ms s.

(** ** src/time.rs:41-57, delay: milliseconds slept *)
Definition delay_ms (attempts : N) : N :=
  match attempts with
  | 0 => 0 | 1 => 1 | 2 => 4 | 3 => 8 | 4 => 16 | 5 => 32 | 6 => 64 | 7 => 128 | 8 => 256
  | _ => 512
  end%N.
End Flow.
Arguments fr_sent {Q St}. Arguments fr_stopped {Q St}. Arguments fr_rest {Q St}.
Arguments fr_state {Q St}. Arguments fr_buffer {Q St}. Arguments mkFres {Q St}.
