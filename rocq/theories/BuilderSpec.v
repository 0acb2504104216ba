(** * Calls on the builder of a point, and what was said last *)
From Verif Require Import Base TelemetryModel.
Open Scope list_scope. Open Scope nat_scope.

Section Builder.
Context `{Q : QLib}.
(** a call of one of the methods of SoftTelemetry, src/metric/telemetry.rs:261-364 *)
Inductive call :=
| Name (n : string) | Value (x : f64) | Kind (k : method) | Error (e : f64) | ClearError | Bounds (bs : list f64) | Timestamp (t : Z)
| Tags (m : tagmap) | Persist (p : bool) | Count (c : N) | SampleSum (x : f64).
Definition do (c : call) (s : soft) : option soft :=
  match c with
  | Name n => Some (b_name n s) | Value x => Some (b_value x s) | Kind k => Some (b_kind k s) | Error e => Some (b_error e s)
  | ClearError => Some (b_clear_error s) | Bounds bs => b_bounds bs s | Timestamp t => Some (b_timestamp t s) | Tags m => Some (b_tags m s)
  | Persist p => Some (b_persist p s) | Count c => Some (b_count c s) | SampleSum x => Some (b_sample_sum x s)
  end.
(** a chain of calls; None: one of them panicked *)
Fixpoint chain (cs : list call) (s : soft) : option soft :=
  match cs with [] => Some s | c :: cs => match do c s with Some s => chain cs s | None => None end end.

(** what the last of the calls that say something of it says *)
Fixpoint latest {A} (says : call -> option A) (cs : list call) : option A :=
  match cs with
  | [] => None
  | c :: cs => match latest says cs with Some a => Some a | None => says c end
  end.
Definition says_name c := match c with Name n => Some n | _ => None end.
Definition says_value c := match c with Value x => Some x | _ => None end.
Definition says_kind c := match c with Kind k => Some k | _ => None end.
Definition says_error c := match c with Error e => Some (Some e) | ClearError => Some None | _ => None end.
Definition says_bounds c := match c with Bounds bs => Some bs | _ => None end.
Definition says_timestamp c := match c with Timestamp t => Some t | _ => None end.
Definition says_tags c := match c with Tags m => Some m | _ => None end.
Definition says_persist c := match c with Persist p => Some p | _ => None end.
Definition says_count c := match c with Count n => Some n | _ => None end.
Definition says_sum c := match c with SampleSum x => Some x | _ => None end.
(** the calls say the same *)
Definition agree (cs cs' : list call) : Prop :=
  latest says_name cs = latest says_name cs' /\ latest says_value cs = latest says_value cs' /\ latest says_kind cs = latest says_kind cs' /\
  latest says_error cs = latest says_error cs' /\ latest says_bounds cs = latest says_bounds cs' /\ latest says_timestamp cs = latest says_timestamp cs' /\
  latest says_tags cs = latest says_tags cs' /\ latest says_persist cs = latest says_persist cs' /\ latest says_count cs = latest says_count cs' /\
  latest says_sum cs = latest says_sum cs'.
(** bounds that cannot be put in order: a NaN among several *)
Definition unordered (bs : list f64) : Prop := 2 <= List.length bs /\ In S754_nan bs.
End Builder.
