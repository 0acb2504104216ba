(** * The aggregation buffer: src/buckets.rs *)
From Verif Require Import Base TelemetryModel.

Section Buckets.
Context `{Q : QLib}.
(** DefaultHasher over name and tags (telemetry.rs:863-873); any function. *)
Variable hfun : list string -> N.

(** Telemetry::name_tag_hash, src/metric/telemetry.rs:863-873 *)
Definition name_tag_hash (t : telemetry) : N := hfun (series_key t).

(** src/buckets.rs:13-18 *)
Record buckets := mkBuckets {
  b_keys : list N;
  b_values : list (list telemetry);
  b_count : N;
  b_width : Z;
}.

(** Buckets::default and new, src/buckets.rs:32-39, 72-76 *)
Definition b_new (w : Z) : buckets := mkBuckets [] [] 0 w.

Definition u64_max : N := 18446744073709551615.
(** u64::saturating_add(1) *)
Definition sat_succ (c : N) : N := N.min (c + 1) u64_max.

(** Iter::next, src/buckets.rs:49-65: all values of the first key, then of the
    second, and so on *)
Fixpoint iter_from (ks : list N) (vs : list (list telemetry)) : list telemetry :=
  match ks, vs with
  | _ :: ks', v :: vs' => v ++ iter_from ks' vs'
  | _, _ => []
  end.
(** Buckets::iter, 209-215 *)
Definition b_iter (b : buckets) : list telemetry := iter_from (b_keys b) (b_values b).

(** the new point opened from the preceding bin's point, src/buckets.rs:164-172:
    clone, restamp, thaw, persist(true), harden().unwrap(), [+=].  None = panic *)
Definition carry (prev t : telemetry) : option telemetry :=
  match harden 0 (b_persist true (thaw (t_set_timestamp (t_timestamp t) prev))) with
  | HOk cur => Some (t_add cur t)
  | _ => None
  end.

(** Buckets::add, lower half, src/buckets.rs:159-177: insertion in the series'
    vector. Result: the new vector and whether a point was added. None = panic
    (division by a zero bin width, or unwrap). *)
Definition vec_add (w : Z) (v : list telemetry) (t : telemetry) : option (list telemetry * bool) :=
  if andb (Z.eqb w 0) (negb (Nat.eqb (List.length v) 0)) then None
  else
    match bsearch (fun probe => within w probe t) v with
    | Found i => Some (update_at i (fun p => t_add p t) v, false)
    | Missing i =>
        if andb (t_persist t) (0 <? i) then
          match nth_error v (i - 1) with
          | Some prev =>
              match carry prev t with
              | Some cur => Some (insert_at i cur v, true)
              | None => None
              end
          | None => None
          end
        else Some (insert_at i t v, true)
    end.

(** Buckets::add, src/buckets.rs:146-178.  None = panic. *)
Definition b_add (b : buckets) (t : telemetry) : option buckets :=
  let h := name_tag_hash t in
  let '(keys, values, i) :=
    match bsearch (fun probe => N.compare probe h) (b_keys b) with
    | Found i => (b_keys b, b_values b, i)
    | Missing i => (insert_at i h (b_keys b), insert_at i [] (b_values b), i)
    end in
  match nth_error values i with
  | None => None (* index out of range *)
  | Some v =>
      match vec_add (b_width b) v t with
      | None => None
      | Some (v', grown) =>
          Some (mkBuckets keys (update_at i (fun _ => v') values)
                  (if grown then sat_succ (b_count b) else b_count b) (b_width b))
      end
  end.

(** Buckets::reset on one vector, src/buckets.rs:102-115: swap the last element
    to the front and truncate to one element = keep the last element. *)
Definition vec_reset (now : Z) (v : list telemetry) : list telemetry :=
  match rev v with
  | [] => []
  | p :: _ => if t_persist p then [t_set_timestamp now p] else []
  end.

(** Buckets::reset, src/buckets.rs:100-116 *)
Definition b_reset (now : Z) (b : buckets) : buckets :=
  let vs := map (vec_reset now) (b_values b) in
  mkBuckets (b_keys b) vs
    (fold_left (fun c v => if Nat.eqb (List.length v) 0 then c else sat_succ c) vs 0%N)
    (b_width b).

(** Buckets::is_empty 127, count 194, len 203 *)
Definition b_is_empty (b : buckets) : bool := N.eqb (b_count b) 0.
Definition b_len (b : buckets) : nat := List.length (b_keys b).

(** A client's operations on the buffer. *)
Inductive bop := BAdd (t : telemetry) | BReset (now : Z).
Definition b_step (b : buckets) (o : bop) : option buckets :=
  match o with
  | BAdd t => b_add b t
  | BReset now => Some (b_reset now b)
  end.
Fixpoint b_run (b : buckets) (os : list bop) : option buckets :=
  match os with
  | [] => Some b
  | o :: r => match b_step b o with Some b' => b_run b' r | None => None end
  end.
End Buckets.
