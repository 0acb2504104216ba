(** * What any client that speaks protocol buffers may write to the native source. *)
From Verif Require Import Base FloatFacts TelemetryModel TelemetrySpec ProtoModel NativeModel NativeSpec.
Open Scope string_scope. Open Scope list_scope. Open Scope nat_scope.

(** The parts of a Telemetry message: each may be given any number of times, in any
    order; numbers one by one or packed; a tag with its key and its value in any order,
    either of them missing or said again; fields of later versions. *)
Inductive epart := EKey (s : string) | EValue (s : string) | EOther (num : N) (w : wire).
Inductive ppart :=
| PName (s : string) | PPacked (l : list f64) | POne (x : f64) | PPersisted (b : bool) | PMethod (m : method)
| PTag (es : list epart) | PTime (z : Z) | PBounds (l : list f64) | PBound (x : f64) | POther (num : N) (w : wire).
Inductive lpart :=
| LPath (s : string) | LValue (s : string) | LTag (es : list epart) | LTime (z : Z) | LOther (num : N) (w : wire).
Definition doubles (l : list f64) : wire := WLen (List.concat (map write_double l)).
Definition one_double (x : f64) : wire := WFixed64 (Z.to_N (fbits x)).
Definition text (s : string) : wire := WLen (sbytes s).
Definition epart_field (e : epart) : N * wire := match e with EKey s => (1%N, text s) | EValue s => (2%N, text s) | EOther num w => (num, w) end.
Definition tag_bytes (es : list epart) : list N := List.concat (map (fun e => write_field (epart_field e)) es).
Definition ppart_field (x : ppart) : N * wire :=
  match x with
  | PName s => (1, text s)
  | PPacked l => (2, doubles l)
  | POne x => (2, one_double x)
  | PPersisted b => (3, WVarint (if b then 1 else 0))
  | PMethod m => (4, WVarint (match m with MSum => 1 | MSet => 2 | MSummarize => 3 | MHistogram => 4 end))
  | PTag es => (5, WLen (tag_bytes es))
  | PTime z => (6, WVarint (u64_of z))
  | PBounds l => (7, doubles l)
  | PBound x => (7, one_double x)
  | POther num w => (num, w)
  end%N.
Definition lpart_field (x : lpart) : N * wire :=
  match x with
  | LPath s => (1, text s)
  | LValue s => (2, text s)
  | LTag es => (3, WLen (tag_bytes es))
  | LTime z => (4, WVarint (u64_of z))
  | LOther num w => (num, w)
  end%N.
Inductive citem := CPoint (ps : list ppart) | CLine (ls : list lpart) | COther (num : N) (w : wire).
Definition pparts_bytes (ps : list ppart) : list N := List.concat (map (fun x => write_field (ppart_field x)) ps).
Definition lparts_bytes (ls : list lpart) : list N := List.concat (map (fun x => write_field (lpart_field x)) ls).
Definition citem_bytes (i : citem) : list N :=
  match i with
  | CPoint ps => write_field (2%N, WLen (pparts_bytes ps))
  | CLine ls => write_field (3%N, WLen (lparts_bytes ls))
  | COther num w => write_field (num, w)
  end.

(** ** What may be written *)
Section Ok.
Variable utf8 : list N -> bool.
Definition other_ok (num : N) (w : wire) : Prop :=
  (0 < num < 2 ^ 29)%N /\
  match w with
  | WVarint n | WFixed64 n => (n < 2 ^ 64)%N
  | WLen bs => (N.of_nat (List.length bs) < 2 ^ 32)%N
  | WFixed32 n => (n < 2 ^ 32)%N
  end.
Definition epart_ok (e : epart) : Prop := match e with EKey s | EValue s => string_ok utf8 s | EOther num w => other_ok num w /\ (2 < num)%N end.
Definition ppart_ok (x : ppart) : Prop :=
  match x with
  | PName s => string_ok utf8 s
  | PPacked l | PBounds l => Forall f_ok l
  | POne x | PBound x => f_ok x
  | PTag es => Forall epart_ok es
  | PTime z => i64_ok z
  | POther num w => other_ok num w /\ (7 < num)%N
  | _ => True
  end.
Definition lpart_ok (x : lpart) : Prop :=
  match x with
  | LPath s | LValue s => string_ok utf8 s
  | LTag es => Forall epart_ok es
  | LTime z => i64_ok z
  | LOther num w => other_ok num w /\ (4 < num)%N
  end.
Definition citem_ok (i : citem) : Prop :=
  match i with
  | CPoint ps => Forall ppart_ok ps /\ (N.of_nat (List.length (pparts_bytes ps)) < 2 ^ 32)%N
  | CLine ls => Forall lpart_ok ls /\ (N.of_nat (List.length (lparts_bytes ls)) < 2 ^ 32)%N
  | COther num w => other_ok num w /\ num <> 2%N /\ num <> 3%N
  end.
End Ok.

(** ** What it means: the last of what can be said once, all of what can be repeated, in order *)
Fixpoint last_said {A} (l : list A) : option A :=
  match l with [] => None | x :: r => match last_said r with Some y => Some y | None => Some x end end.
(** what a tag does not say is empty *)
Definition or_empty (o : option string) : string := match o with Some s => s | None => "" end.
Definition tag_key (es : list epart) : string := or_empty (last_said (flat_map (fun e => match e with EKey s => [s] | _ => [] end) es)).
Definition tag_value (es : list epart) : string := or_empty (last_said (flat_map (fun e => match e with EValue s => [s] | _ => [] end) es)).
Definition samples_said (ps : list ppart) : list f64 := flat_map (fun x => match x with PPacked l => l | POne x => [x] | _ => [] end) ps.
Definition pmeans (ps : list ppart) (p : wpoint) : Prop :=
  w_name p = last_said (flat_map (fun x => match x with PName s => [s] | _ => [] end) ps) /\
  w_samples p = samples_said ps /\
  w_persisted p = last_said (flat_map (fun x => match x with PPersisted b => [b] | _ => [] end) ps) /\
  w_method p = last_said (flat_map (fun x => match x with PMethod m => [m] | _ => [] end) ps) /\
  (tm_ok (w_meta p) /\ forall k, tm_get k (w_meta p) = last_said (flat_map (fun x => match x with PTag es => if seqb k (tag_key es) then [tag_value es] else [] | _ => [] end) ps)) /\
  w_ts p = last_said (flat_map (fun x => match x with PTime z => [z] | _ => [] end) ps) /\
  w_bounds p = flat_map (fun x => match x with PBounds l => l | PBound x => [x] | _ => [] end) ps.
Definition lmeans (ls : list lpart) (l : wline) : Prop :=
  wl_path l = last_said (flat_map (fun x => match x with LPath s => [s] | _ => [] end) ls) /\
  wl_value l = last_said (flat_map (fun x => match x with LValue s => [s] | _ => [] end) ls) /\
  (tm_ok (wl_meta l) /\ forall k, tm_get k (wl_meta l) = last_said (flat_map (fun x => match x with LTag es => if seqb k (tag_key es) then [tag_value es] else [] | _ => [] end) ls)) /\
  wl_ts l = last_said (flat_map (fun x => match x with LTime z => [z] | _ => [] end) ls).
Definition cpoints (is : list citem) : list (list ppart) := flat_map (fun i => match i with CPoint ps => [ps] | _ => [] end) is.
Definition clines (is : list citem) : list (list lpart) := flat_map (fun i => match i with CLine ls => [ls] | _ => [] end) is.
