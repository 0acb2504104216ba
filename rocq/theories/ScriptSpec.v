(** * The calls a programmable filter makes and what comes of them *)
From Verif Require Import Base TelemetryModel FlowModel FlowSpec FiltersModel FiltersSpec.
Open Scope string_scope. Open Scope list_scope. Open Scope nat_scope.
Section Spec.
Context `{Q : QLib}.
(** a call: the function of the script, and the metrics and logs in its payload *)
Definition scall : Type := string * list telemetry * list logline.
Definition is_tick (c : scall) : bool := seqb (fst (fst c)) "tick".
(** the calls that lines and points ask for *)
Definition asked (evs : list event) : list scall :=
  flat_map (fun e => match e with
                     | ETelemetry t => [("process_metric", [t], [])]
                     | ELog l => [("process_log", [], [l])]
                     | _ => []
                     end) evs.
(** what is told downstream of a call that failed *)
Definition report (path func : string) (now : Z) : event :=
  ETelemetry (mkTelemetry ("cernan.filter." ++ path ++ "." ++ func ++ ".failure")%string (VSum fone) false None now None None).
(** the script's state after calls, failed ones too *)
Fixpoint after_calls (S : script) (st : sc_state S) (cs : list scall) : sc_state S :=
  match cs with
  | [] => st
  | (f, ms, ls) :: r => after_calls S (fst (sc_call S st f ms ls)) r
  end.
(** what goes downstream for calls *)
Fixpoint calls_yield (S : script) (path : string) (now : Z) (st : sc_state S) (cs : list scall) : list event :=
  match cs with
  | [] => []
  | (f, ms, ls) :: r =>
      match snd (sc_call S st f ms ls) with
      | LDone logs metrics => map ELog logs ++ map ETelemetry metrics
      | _ => [report path f now]
      end ++ calls_yield S path now (fst (sc_call S st f ms ls)) r
  end.
Definition is_data (e : event) : bool := match e with ETelemetry _ | ELog _ => true | _ => false end.
End Spec.
