(** * Pulses of the timer on their way through filters. *)
From Verif Require Import Base TelemetryModel FlowModel FlowSpec TopologyModel TopologySpec NetworkModel NetworkSpec LiveSpec.
Open Scope string_scope. Open Scope list_scope. Open Scope nat_scope.

Section Spec.
Context `{Q : QLib}.
(** A filter that, started in [st], hands every pulse on at once, except those not above a mark it got from an earlier
    pulse, and makes none of its own. *)
Definition hands_pulses (F : filt) (st : f_state F) : Prop :=
  exists (good : f_state F -> Prop) (mark : f_state F -> N), good st /\ mark st = 0%N /\
  forall st e, good st -> is_shutdown e = false ->
    let '(st', pushed, err) := f_process F st e in
    good st' /\ (forall fe, err = Some fe -> flush_indices [fe] = []) /\
    match e with
    | ETimerFlush n => err = None /\ (mark st' = mark st \/ mark st' = n) /\
        (flush_indices pushed = [n] \/ (flush_indices pushed = [] /\ (n <= mark st)%N))
    | _ => mark st' = mark st /\ flush_indices pushed = []
    end.
(** what goes to [v] may get to [d] *)
Inductive leads (g : config) (d : string) : string -> Prop :=
| leads_there : leads g d d
| leads_on v v' : upstream g v v' -> leads g d v' -> leads g d v.
(** no pulse is refused by a full queue on its way to [d] *)
Definition pulses_kept (g : config) (l : nat -> option (@label Q)) (d : string) : Prop :=
  forall i u v n, leads g d v -> l i <> Some (LCopy u v (ETimerFlush n) false).
(** every filter before [d] hands pulses on *)
Definition handed {S} (proc : string -> S -> event -> S * list event * option event) (st0 : string -> S) (g : config) (d : string) : Prop :=
  forall f, In f (map fst (g_filters g)) -> leads g d f -> hands_pulses (mkFilt S (proc f)) (st0 f).
End Spec.
