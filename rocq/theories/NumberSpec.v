(** * What texts of numbers and words mean, independently of how they are read. *)
From Verif Require Import Base RoundSpec UnicodeSpec.
Open Scope string_scope. Open Scope list_scope. Open Scope Z_scope.

(** [written s n]: the decimal digits [s] write the number [n], each digit worth its place *)
Inductive written : string -> Z -> Prop :=
| wr_none : written "" 0
| wr_digit d r n : 0 <= d <= 9 -> written r n -> written (String (ascii_of_N (Z.to_N (48 + d))) r) (d * 10 ^ Z.of_nat (String.length r) + n).
(** a sign, or none *)
Inductive signed : string -> bool -> string -> Prop :=
| sg_plus r : signed (String "+" r) false r
| sg_minus r : signed (String "-" r) true r
| sg_none r : (forall r', r <> String "+" r' /\ r <> String "-" r') -> signed r false r.
Definition with_sign (neg : bool) (n : Z) : Z := if neg then - n else n.
Definition integer (s : string) (z : Z) : Prop := exists neg a n, signed s neg a /\ a <> "" /\ written a n /\ z = with_sign neg n.
(** [exponent s k]: nothing, or the letter and an integer *)
Inductive exponent : string -> Z -> Prop :=
| ex_none : exponent "" 0
| ex_some c r k : c = "e"%char \/ c = "E"%char -> integer r k -> exponent (String c r) k.
(** [decimal s n e]: the text writes n * 10^e: whole digits, a point and more digits if wanted (one digit at least in all), an exponent if wanted *)
Inductive decimal : string -> Z -> Z -> Prop :=
| dec_whole a x n k : a <> "" -> written a n -> exponent x k -> decimal (a ++ x)%string n k
| dec_point a b x n k : (a ++ b)%string <> "" -> written (a ++ b)%string n -> exponent x k -> decimal (a ++ String "." (b ++ x))%string n (k - Z.of_nat (String.length b)).
(** [x] is the float for n * 10^e with this sign: the nearest one *)
Definition float_for (neg : bool) (n e : Z) (x : f64) : Prop := nearest neg (n * 10 ^ Z.max 0 e) (10 ^ Z.max 0 (- e)) x.

(** [s] is [t], which is in small letters, in any case of letters *)
Definition any_case (s t : string) : Prop :=
  Forall2 (fun c d => c = d \/ (65 <= N_of_ascii c <= 90 /\ N_of_ascii d = N_of_ascii c + 32)%N) (list_ascii_of_string s) (list_ascii_of_string t).

(** White_Space, of the Unicode character database *)
Definition white (c : N) : Prop :=
  (9 <= c <= 13)%N \/ (0x2000 <= c <= 0x200A)%N \/ In c [0x20; 0x85; 0xA0; 0x1680; 0x2028; 0x2029; 0x202F; 0x205F; 0x3000]%N.
(** [splits cs ws]: the words of the text, parted by white space *)
Inductive splits : list N -> list (list N) -> Prop :=
| sp_end w : Forall white w -> splits w []
| sp_word w v r ws : Forall white w -> v <> [] -> Forall (fun c => ~ white c) v -> (r = [] \/ exists c r', r = c :: r' /\ white c) -> splits r ws -> splits (w ++ v ++ r) (v :: ws).
