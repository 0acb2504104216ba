(** * Display of integers in core::fmt::num, which the sinks write times and counts with
    (src/sink/wavefront.rs:345-360, src/sink/influxdb.rs:88-100, src/sink/prometheus.rs:483, 546). *)
From Coq Require Import String Ascii NArith ZArith.
Open Scope string_scope. Open Scope N_scope.

(** b'0' + d *)
Definition digit (d : N) : ascii := ascii_of_N (48 + d).
(** the loop that fills the buffer from its end.  Simplification: newer versions of std take four or two digits in a step *)
Fixpoint put (fuel : nat) (n : N) (acc : string) : string :=
  match fuel with
  | O => acc
  | S f => if n <? 10 then String (digit n) acc else put f (n / 10) (String (digit (n mod 10)) acc)
  end.
(** Display of unsigned integers; the buffer is never too short *)
Definition show_u (n : N) : string := put (S (N.to_nat (N.log2 n))) n "".
(** Display of signed integers: pad_integral with the sign *)
Definition show_i (z : Z) : string := if (z <? 0)%Z then String "-" (show_u (Z.abs_N z)) else show_u (Z.to_N z).
