(** * The wire format of protocol buffers: the crate protobuf 1.7 as far as
    src/protocols/native.rs uses it.  The crate is not in /repo; its encoding is
    public and is modelled here byte by byte. *)
From Verif Require Import Base FloatFacts.
Open Scope string_scope. Open Scope list_scope. Open Scope nat_scope.

(** the bytes of a string *)
Fixpoint sbytes (s : string) : list N :=
  match s with EmptyString => [] | String c r => N_of_ascii c :: sbytes r end.
Fixpoint bstring (bs : list N) : string :=
  match bs with [] => EmptyString | b :: r => String (ascii_of_N b) (bstring r) end.

(** base 128 numbers, low group first (write_raw_varint32, write_raw_varint64) *)
Fixpoint varint (fuel : nat) (n : N) : list N :=
  match fuel with
  | 0 => []
  | S f => if (n <? 128)%N then [n] else (n mod 128 + 128)%N :: varint f (n / 128)%N
  end.
Definition write_varint (n : N) : list N := varint 10 n.
(** read_raw_varint64: at most ten bytes; bits beyond the 64th are dropped *)
Fixpoint unvarint (fuel : nat) (bs : list N) : option (N * list N) :=
  match fuel with
  | 0 => None
  | S f => match bs with
           | [] => None
           | b :: r => if (b <? 128)%N then Some (b, r)
                       else match unvarint f r with
                            | Some (v, r') => Some (b mod 128 + 128 * v, r')%N
                            | None => None
                            end
           end
  end.
Definition read_varint64 (bs : list N) : option (N * list N) :=
  match unvarint 10 bs with Some (v, r) => Some (v mod 2 ^ 64, r)%N | None => None end.
(** read_raw_varint32: the low 32 bits *)
Definition read_varint32 (bs : list N) : option (N * list N) :=
  match unvarint 10 bs with Some (v, r) => Some (v mod 2 ^ 32, r)%N | None => None end.
(** compute_raw_varint32_size, compute_raw_varint64_size *)
Definition varint_size (n : N) : N := N.of_nat (List.length (varint 10 n)).

(** little endian 64 bit words (write_raw_little_endian64) *)
Fixpoint le_bytes (k : nat) (n : N) : list N :=
  match k with 0 => [] | S k => (n mod 256)%N :: le_bytes k (n / 256)%N end.
Fixpoint le_num (bs : list N) : N :=
  match bs with [] => 0%N | b :: r => (b + 256 * le_num r)%N end.

(** one field of a message on the wire *)
Inductive wire :=
| WVarint (n : N)
| WFixed64 (n : N)
| WLen (bs : list N)
| WFixed32 (n : N).
Definition wire_type (w : wire) : N := match w with WVarint _ => 0 | WFixed64 _ => 1 | WLen _ => 2 | WFixed32 _ => 5 end%N.
(** write_tag *)
Definition write_tag (num wt : N) : list N := write_varint (num * 8 + wt).
Definition write_field (f : N * wire) : list N :=
  write_tag (fst f) (wire_type (snd f)) ++
  match snd f with
  | WVarint n => write_varint n
  | WFixed64 n => le_bytes 8 n
  | WLen bs => write_varint (N.of_nat (List.length bs)) ++ bs
  | WFixed32 n => le_bytes 4 n
  end.

(** the first [n] bytes and the rest; None at the end of the input *)
Definition take (n : nat) (bs : list N) : option (list N * list N) :=
  if List.length bs <? n then None else Some (firstn n bs, skipn n bs).
(** read_tag_unpack and the value: field number 0 and the wire types 6 and 7 are
    errors.  Simplification: a group (wire types 3 and 4, not used by any cernan
    message) is an error here; the crate skips unknown groups. *)
Definition read_field (bs : list N) : option ((N * wire) * list N) :=
  match read_varint32 bs with
  | None => None
  | Some (tag, r) =>
      let num := (tag / 8)%N in
      if (num =? 0)%N then None
      else match (tag mod 8)%N with
           | 0%N => match read_varint64 r with Some (v, r') => Some ((num, WVarint v), r') | None => None end
           | 1%N => match take 8 r with Some (b, r') => Some ((num, WFixed64 (le_num b)), r') | None => None end
           | 2%N => match read_varint32 r with
                    | Some (len, r') => match take (N.to_nat len) r' with Some (b, r'') => Some ((num, WLen b), r'') | None => None end
                    | None => None
                    end
           | 5%N => match take 4 r with Some (b, r') => Some ((num, WFixed32 (le_num b)), r') | None => None end
           | _ => None
           end
  end.
(** the loop [while !is.eof()] of every merge_from.  An error anywhere fails the
    whole parse, so reading all fields first and then interpreting them gives the
    same result. *)
Fixpoint read_fields (fuel : nat) (bs : list N) : option (list (N * wire)) :=
  match fuel with
  | 0 => None
  | S f => match bs with
           | [] => Some []
           | _ => match read_field bs with
                  | Some (fld, r) => match read_fields f r with Some l => Some (fld :: l) | None => None end
                  | None => None
                  end
           end
  end.
Definition parse_fields (bs : list N) : option (list (N * wire)) := read_fields (1 + List.length bs) bs.

(** doubles *)
Definition write_double (x : f64) : list N := le_bytes 8 (Z.to_N (fbits x)).
Definition read_double (n : N) : f64 := fofbits (Z.of_N n).
(** the packed form: read until the end *)
Fixpoint read_packed (fuel : nat) (bs : list N) : option (list f64) :=
  match fuel with
  | 0 => None
  | S f => match bs with
           | [] => Some []
           | _ => match take 8 bs with
                  | Some (b, r) => match read_packed f r with Some l => Some (read_double (le_num b) :: l) | None => None end
                  | None => None
                  end
           end
  end.
(** i64 as u64 and back *)
Definition u64_of (z : Z) : N := Z.to_N (z mod 2 ^ 64).
Definition i64_of (n : N) : Z := let z := Z.of_N n in if (z <? 2 ^ 63)%Z then z else (z - 2 ^ 64)%Z.
