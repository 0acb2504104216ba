(** * What the native protocol is for, independently of the code. *)
From Verif Require Import Base FloatFacts TelemetryModel TelemetrySpec ProtoModel NativeModel.
Open Scope string_scope. Open Scope list_scope. Open Scope nat_scope.

Section Spec.
Context `{Q : QLib}.
Variable utf8 : list N -> bool.

(** the samples [xs] of a point of kind [m], merged in order *)
Definition merged_samples (m : method) (xs : list f64) (v : value) : Prop :=
  match m with
  | MSet => exists l x, xs = l ++ [x] /\ v = VSet x
  | MSum => exists x l, xs = x :: l /\ v = VSum (fold_left fadd l x)
  | MSummarize => exists x l, xs = x :: l /\ v = VQuant (fold_left c_insert xs (c_new (fratio 1 1000))) (fold_left fadd l x)
  | MHistogram => exists h, h_new [fofZ 1; fofZ 10; fofZ 100; fofZ 1000] = Some h /\ v = VHist (fold_left h_insert xs h)
  end.
(** the tags [own'] of an event are exactly [m] *)
Definition tags_are (m : tagmap) (own' : option tagmap) : Prop := forall k, otag k own' = tm_get k m.
(** the tags [own'] are the tags [own] laid over [d] *)
Definition tags_layered (own : option tagmap) (d : tagmap) (own' : option tagmap) : Prop :=
  forall k v, otag k own' = Some v <-> layered own d k v.

(** A point on the wire can be written and read: strings are UTF-8, floats are
    floats, the timestamp is an i64, metadata is a map, and it is shorter than 4 GiB. *)
Definition string_ok (s : string) : Prop := utf8 (sbytes s) = true.
Definition meta_ok (m : tagmap) : Prop := tm_ok m /\ Forall (fun kv => string_ok (fst kv) /\ string_ok (snd kv)) m.
Definition opt_ok {A} (P : A -> Prop) (o : option A) : Prop := match o with Some x => P x | None => True end.
Definition i64_ok (z : Z) : Prop := (-2 ^ 63 <= z < 2 ^ 63)%Z.
Definition wpoint_ok (p : wpoint) : Prop :=
  opt_ok string_ok (w_name p) /\ Forall f_ok (w_samples p) /\ meta_ok (w_meta p) /\ opt_ok i64_ok (w_ts p) /\
  Forall f_ok (w_bounds p) /\ (N.of_nat (List.length (point_bytes p)) < 2 ^ 32)%N.
Definition wline_ok (l : wline) : Prop :=
  opt_ok string_ok (wl_path l) /\ opt_ok string_ok (wl_value l) /\ meta_ok (wl_meta l) /\ opt_ok i64_ok (wl_ts l) /\
  (N.of_nat (List.length (line_bytes l)) < 2 ^ 32)%N.

(** a payload on the wire: points, lines and fields of later versions, in any order *)
Inductive item := IPoint (p : wpoint) | ILine (l : wline) | IOther (num : N) (w : wire).
Definition item_bytes (i : item) : list N :=
  match i with
  | IPoint p => write_field (2%N, WLen (point_bytes p))
  | ILine l => write_field (3%N, WLen (line_bytes l))
  | IOther num w => write_field (num, w)
  end.
Definition item_ok (i : item) : Prop :=
  match i with
  | IPoint p => wpoint_ok p
  | ILine l => wline_ok l
  | IOther num w => (0 < num < 2 ^ 29)%N /\ num <> 2%N /\ num <> 3%N /\
      match w with
      | WVarint n | WFixed64 n => (n < 2 ^ 64)%N
      | WLen bs => (N.of_nat (List.length bs) < 2 ^ 32)%N
      | WFixed32 n => (n < 2 ^ 32)%N
      end
  end.
(** it is short enough to be written *)
Definition item_fits (i : item) : Prop :=
  match i with
  | IPoint p => (N.of_nat (List.length (point_bytes p)) < 2 ^ 32)%N /\ Forall f_ok (w_bounds p)
  | ILine l => (N.of_nat (List.length (line_bytes l)) < 2 ^ 32)%N
  | IOther _ _ => False
  end.
(** one of its texts is not UTF-8: name, path, value, a key or value of the metadata *)
Definition not_text (o : option string) : Prop := exists s, o = Some s /\ utf8 (sbytes s) = false.
Definition meta_not_text (m : tagmap) : Prop := exists kv, In kv m /\ (utf8 (sbytes (fst kv)) = false \/ utf8 (sbytes (snd kv)) = false).
Definition item_bad_text (i : item) : Prop :=
  match i with
  | IPoint p => not_text (w_name p) \/ meta_not_text (w_meta p)
  | ILine l => not_text (wl_path l) \/ not_text (wl_value l) \/ meta_not_text (wl_meta l)
  | IOther _ _ => False
  end.
Definition item_points (is : list item) : list wpoint := flat_map (fun i => match i with IPoint p => [p] | _ => [] end) is.
Definition item_lines (is : list item) : list wline := flat_map (fun i => match i with ILine l => [l] | _ => [] end) is.

(** the event a received point becomes *)
Definition point_becomes (p : wpoint) (e : event) : Prop :=
  exists t, e = ETelemetry t /\
    t_name t = odefault "" (w_name p) /\
    t_persist t = odefault false (w_persisted p) /\
    merged_samples (odefault MSummarize (w_method p)) (w_samples p) (t_value t) /\
    tags_are (w_meta p) (t_tags t) /\
    t_override_count t = None /\ t_override_sum t = None /\
    forall s, (Z.abs s <= 2 ^ 43)%Z -> odefault 0%Z (w_ts p) = (s * 1000)%Z -> t_timestamp t = s.
Definition line_becomes (l : wline) (e : event) : Prop :=
  exists ll, e = ELog ll /\
    l_path ll = odefault "" (wl_path l) /\ l_value ll = odefault "" (wl_value l) /\ l_fields ll = [] /\
    tags_are (wl_meta l) (l_tags ll) /\
    forall s, (Z.abs s <= 2 ^ 43)%Z -> odefault 0%Z (wl_ts l) = (s * 1000)%Z -> l_time ll = s.

(** end to end: what a point handed to the sink is at the source *)
Definition value_arrives (v v' : value) : Prop :=
  match v with
  | VSet x => v' = VSet x
  | VSum x => v' = VSum x
  | VQuant c _ => exists x l, c_values c = x :: l /\
      v' = VQuant (fold_left c_insert (c_values c) (c_new (fratio 1 1000))) (fold_left fadd l x)
  | VHist _ => False
  end.
Definition arrives (d : tagmap) (e e' : event) : Prop :=
  match e, e' with
  | ETelemetry t, ETelemetry t' =>
      t_name t' = t_name t /\ t_kind t' = t_kind t /\ value_arrives (t_value t) (t_value t') /\
      t_persist t' = t_persist t /\ t_timestamp t' = t_timestamp t /\ tags_layered (t_tags t) d (t_tags t')
  | ELog l, ELog l' =>
      l_path l' = l_path l /\ l_value l' = l_value l /\ l_time l' = l_time l /\ tags_layered (l_tags l) d (l_tags l')
  | _, _ => False
  end.
Definition is_point (e : event) : bool := match e with ETelemetry _ => true | _ => false end.
Definition is_line (e : event) : bool := match e with ELog _ => true | _ => false end.
(** points first, then lines *)
Definition in_wire_order (evs : list event) : list event := filter is_point evs ++ filter is_line evs.

(** the numbers of samples the sink gets the length right for, and those it gets it
    wrong for *)
Definition count_fits (n : nat) : Prop := let m := N.of_nat n in (m < 16 \/ 128 <= m < 2048 \/ 16384 <= m < 262144)%N.
Definition count_misfits (n : nat) : Prop := let m := N.of_nat n in (16 <= m < 128 \/ 2048 <= m < 16384)%N.

Definition tags_ok (own : option tagmap) : Prop :=
  otm_ok own /\ match own with Some m => Forall (fun kv => string_ok (fst kv) /\ string_ok (snd kv)) m | None => True end.
(** an event the sink can carry *)
Definition sendable (e : event) : Prop :=
  match e with
  | ETelemetry t => string_ok (t_name t) /\ t_kind t <> MHistogram /\ t_samples t <> [] /\ Forall f_ok (t_samples t) /\
      (Z.abs (t_timestamp t) <= 2 ^ 43)%Z /\ tags_ok (t_tags t)
  | ELog l => string_ok (l_path l) /\ string_ok (l_value l) /\ (Z.abs (l_time l) <= 2 ^ 43)%Z /\ tags_ok (l_tags l)
  | _ => False
  end.
Definition event_count (e : event) : nat := match e with ETelemetry t => List.length (t_samples t) | _ => 1 end.
End Spec.
