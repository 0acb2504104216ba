(** * The rates 1/n at which whole counts stay whole. *)
From Coq Require Import ZArith.
Open Scope Z_scope.

(** [exact_at n]: with k the binary logarithm of n and m the whole number nearest to 2^(53+k)/n, m n is off 2^(53+k) by less than m 2^k / 2^53 *)
Definition exact_at (n : Z) : Prop :=
  let k := Z.log2 n in let m := (2 ^ (54 + k) + n) / (2 * n) in Z.abs (m * n - 2 ^ (53 + k)) * 2 ^ 53 < m * 2 ^ k.
