(** * Specification of the payload functions. *)
From Verif Require Import Base TelemetryModel FiltersModel PayloadModel.
Open Scope string_scope. Open Scope list_scope. Open Scope nat_scope.

(** [i] names the element [x] of [a ++ x :: b]: counted from 1, or from the end by
    negative numbers *)
Definition picks {A} (i : Z) (a : list A) (x : A) (b : list A) : Prop :=
  i = (Z.of_nat (List.length a) + 1)%Z \/ i = (- (Z.of_nat (List.length b) + 1))%Z.
(** [i] names no element of a list of length [n] *)
Definition picks_none (i : Z) (n : nat) : Prop := i = 0%Z \/ (Z.of_nat n < i)%Z \/ (i < - Z.of_nat n)%Z.

(** a tag of one's own *)
Definition own (tags : option tagmap) (k : string) : option string :=
  match tags with Some m => alookup seqb k m | None => None end.

Section Spec.
Context `{Q : QLib} `{L : LuaLib}.
(** lengths a vector can have *)
Definition fits (p : payload) : Prop :=
  (Z.of_nat (List.length (p_metrics p)) < 2 ^ 63)%Z /\ (Z.of_nat (List.length (p_logs p)) < 2 ^ 63)%Z.

(** what the script is given: a string, or nil *)
Definition gives (v : lval) (o : option string) : Prop := match o with Some s => v = lstr s | None => v = lnil end.

(** calls that ask *)
Definition asks (c : call) : Prop :=
  match c with
  | MetricName _ | LogValue _ | LogPath _ | LogTagValue _ _ | LogFieldValue _ _ | MetricTagValue _ _ | MetricQuery _ _ => True
  | _ => False
  end.
(** scripts all of whose calls satisfy [ok], whatever they are answered *)
Fixpoint only (ok : call -> Prop) {S} (t : lua S) : Prop :=
  match t with
  | Return _ | Fail _ => True
  | Call c k => ok c /\ forall o, only ok (k o)
  end.

(** the same point but for its name and tags *)
Definition same_measure (m m' : telemetry) : Prop :=
  t_value m' = t_value m /\ t_timestamp m' = t_timestamp m /\ t_persist m' = t_persist m /\
  t_override_count m' = t_override_count m /\ t_override_sum m' = t_override_sum m.
(** the same line but for its text, fields and tags *)
Definition same_origin (l l' : logline) : Prop := l_time l' = l_time l /\ l_path l' = l_path l.

(** a point that comes out: one of [ms0] but for name and tags, or pushed at [now] *)
Definition from_metric (now : Z) (ms0 : list telemetry) (m' : telemetry) : Prop :=
  (exists m, In m ms0 /\ same_measure m m') \/
  (t_timestamp m' = now /\ t_persist m' = false /\ (exists x, t_value m' = VSet x) /\ t_override_count m' = None /\ t_override_sum m' = None).
(** a line that comes out: one of [ls0] but for text, fields and tags, or pushed at [now] *)
Definition from_log (path : string) (now : Z) (ls0 : list logline) (l' : logline) : Prop :=
  (exists l, In l ls0 /\ same_origin l l') \/ (l_time l' = now /\ l_path l' = path).

(** the script that makes these calls, one after the other *)
Fixpoint does {S} (cs : list call) (st : S) : lua S :=
  match cs with [] => Return st | c :: r => Call c (fun _ => does r st) end.
(** the event pushed by a call *)
Definition pushed (gtags : tagmap) (path : string) (now : Z) (c : call) : list event :=
  let tags := match gtags with [] => None | _ => Some gtags end in
  match c with
  | PushLog v => match to_str v with Some s => [ELog (mkLog now path s [] tags)] | None => [] end
  | PushMetric n v => match to_str n with Some s => [ETelemetry (mkTelemetry s (VSet (to_number v)) false tags now None None)] | None => [] end
  | _ => []
  end.
Definition pushes (c : call) : Prop := match c with PushLog _ | PushMetric _ _ => True | _ => False end.
Definition is_point (e : event) : bool := match e with ETelemetry _ => true | _ => false end.
Definition is_line (e : event) : bool := match e with ELog _ => true | _ => false end.

(** the failures in what a filter did *)
Definition failures (outs : list (list event * option event)) : N :=
  N.of_nat (List.length (filter (fun o => match snd o with Some _ => true | None => false end) outs)).
End Spec.
