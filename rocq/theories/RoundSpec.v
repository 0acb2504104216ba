(** * The float nearest to a fraction (IEEE 754-2008, 4.3.1: round to nearest, ties to even). *)
From Verif Require Import Base FloatFacts.
Open Scope Z_scope.

(** Every float that is finite is a whole number of times 2^-1074, the least positive float: this many, sign left aside. *)
Definition units (x : f64) : Z := match x with S754_finite _ m e => Z.pos m * 2 ^ (e + 1074) | _ => 0 end.
Definition finite (x : f64) : Prop := match x with S754_finite _ _ _ | S754_zero _ => f_ok x | _ => False end.
Definition minus (x : f64) : bool := match x with S754_finite s _ _ | S754_zero s | S754_infinity s => s | S754_nan => false end.
Definition even_mantissa (x : f64) : Prop := match x with S754_finite _ m _ => Z.even (Z.pos m) = true | _ => True end.
(** how far the float is from n/d, signs left aside, in units of 2^-1074/d *)
Definition off (n d : Z) (x : f64) : Z := Z.abs (units x * d - n * 2 ^ 1074).
(** From here on the nearest float would be 2^1024, had it the room: half way behind the greatest, (2^53 - 1) * 2^971. *)
Definition too_large (n d : Z) : Prop := (2 ^ 54 - 1) * 2 ^ 970 * d <= n.
(** [x] is n/d, with the sign given, as a float *)
Definition nearest (s : bool) (n d : Z) (x : f64) : Prop :=
  (too_large n d -> x = S754_infinity s) /\
  (~ too_large n d -> finite x /\ minus x = s /\ forall y, finite y -> off n d x <= off n d y /\ (off n d y = off n d x -> units y <> units x -> even_mantissa x)).
