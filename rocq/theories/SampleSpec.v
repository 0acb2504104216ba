(** * What sampled lines stand for. *)
From Verif Require Import Base RoundSpec NumberSpec.
Open Scope string_scope. Open Scope list_scope. Open Scope Z_scope.

(** [writes s neg a b]: the text is a decimal for the fraction a/b, with this sign *)
Definition writes (s : string) (neg : bool) (a b : Z) : Prop :=
  exists r n e, signed s neg r /\ decimal r n e /\ a = n * 10 ^ Z.max 0 e /\ b = 10 ^ Z.max 0 (- e).
(** the fraction is between 10^-100 and 10^100 *)
Definition ordinary (a b : Z) : Prop := 0 < a /\ b <= a * 10 ^ 100 /\ a <= b * 10 ^ 100.
(** the float is a/b, with this sign, but for one part in 2^50; nothing is nothing *)
Definition about (neg : bool) (a b : Z) (x : f64) : Prop :=
  finite x /\ minus x = neg /\ Z.abs (units x * b - a * 2 ^ 1074) * 2 ^ 50 <= a * 2 ^ 1074.
(** rates 1/n at which whole numbers are scaled exactly: up to 1/48, and those in use below *)
Definition exact_rate (n : Z) : Prop := 1 <= n <= 48 \/ In n [50; 64; 100; 128; 200; 250; 256; 500; 512; 1000; 1024; 2000; 5000; 10000; 1000000].
