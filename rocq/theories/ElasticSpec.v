(** * Specification of the elasticsearch sink. *)
From Verif Require Import Base TelemetryModel TelemetrySpec ElasticModel.
Open Scope string_scope. Open Scope list_scope. Open Scope nat_scope.

(** the lines delivered, with their ids, in order *)
Definition es_deliveries (ops : list es_op) : list (N * logline) :=
  flat_map (fun o => match o with ESDeliver u l => [(u, l)] | ESFlush _ => [] end) ops.
(** the answers received for single items, in order *)
Definition es_received (log : list (list action * es_answer)) : list (option N * bool) :=
  flat_map (fun r => match snd r with ESItems its => its | _ => [] end) log.

Definition mentions (u : N) (ok : bool) (it : option N * bool) : bool :=
  match fst it with Some v => N.eqb v u | None => false end && Bool.eqb (snd it) ok.
(** the server stored the line *)
Definition es_acked (u : N) (its : list (option N * bool)) : bool := existsb (mentions u true) its.
(** how often the server refused the line *)
Definition es_refusals (u : N) (its : list (option N * bool)) : N :=
  N.of_nat (List.length (filter (mentions u false) its)).

(** the lines that still have to be delivered *)
Definition es_open_lines (limit : N) (ds : list (N * logline)) (its : list (option N * bool)) : list (N * logline) :=
  filter (fun d => negb (es_acked (fst d) its) && (es_refusals (fst d) its <=? limit)%N) ds.

(** the value of a key in the document of a line: fields over the line's tags over
    configured tags over the fixed entries *)
Definition es_fixed (uuid : string) (l : logline) (full : string) (k : string) : option string :=
  if seqb k "uuid" then Some uuid else if seqb k "path" then Some (l_path l)
  else if seqb k "payload" then Some (l_value l) else if seqb k "timestamp" then Some full else None.
Definition es_doc_value (tags : tagmap) (uuid : string) (l : logline) (full : string) (k : string) : option string :=
  match tm_get k (l_fields l) with
  | Some v => Some v
  | None => match otag k (l_tags l) with
            | Some v => Some v
            | None => match tm_get k tags with Some v => Some v | None => es_fixed uuid l full k end
            end
  end.
Definition line_ok (l : logline) : Prop := tm_ok (l_fields l) /\ otm_ok (l_tags l).
