(** * Specification of length-prefixed framing. *)
From Verif Require Import Base FramingModel.
Open Scope list_scope. Open Scope nat_scope.

(** big-endian bytes of a 32 bit number *)
Definition be32 (n : nat) : list N :=
  let z := N.of_nat n in
  [(z / 16777216) mod 256; (z / 65536) mod 256; (z / 256) mod 256; z mod 256]%N.
(** the wire format: length, then bytes *)
Definition frame (p : list N) : list N := be32 (List.length p) ++ p.
Definition frames (ps : list (list N)) : list N := List.concat (map frame ps).

(** the bytes that arrive, however split *)
Definition bytes_of (sc : list arrival) : list N :=
  List.concat (map (fun a => match a with AData bs => bs | _ => [] end) sc).
(** nothing but data and WouldBlock *)
Definition healthy (sc : list arrival) : Prop := Forall (fun a => a <> AIntr /\ a <> AFail) sc.

(** [cut ps k]: [k] bytes into the stream of the frames of [ps] is not inside one of
    the four-byte length fields *)
Definition outside_lengths (ps : list (list N)) (k : nat) : Prop :=
  forall before p after, ps = before ++ p :: after ->
    ~ (List.length (frames before) < k < List.length (frames before) + 4).

(** how a stream ends after its complete frames: [tail] holds the bytes after them *)
Inductive ending (max : nat) (tail : list N) : perr -> Prop :=
| end_in_length : List.length tail < 4 -> ending max tail EEof
| end_in_payload : 4 <= List.length tail -> be_dec (firstn 4 tail) <= max ->
    List.length tail < 4 + be_dec (firstn 4 tail) -> ending max tail EEof
| end_too_large : 4 <= List.length tail -> max < be_dec (firstn 4 tail) -> ending max tail ETooLarge
| end_empty_payload : 4 <= List.length tail -> be_dec (firstn 4 tail) = 0 -> ending max tail EEof.
