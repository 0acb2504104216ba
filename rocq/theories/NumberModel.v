(** * Numbers and words of the text protocols: what std's [f64::from_str], [i64::from_str] and [str::split_whitespace] do.
    They are called in src/protocols/statsd.rs:44, 68, 83 and 95 and in src/protocols/graphite.rs:14, 19 and 23; the code is std's, not in /repo,
    and is modelled after its documentation. *)
From Verif Require Import Base.
Open Scope string_scope. Open Scope list_scope. Open Scope Z_scope.

(** char::to_digit(10) *)
Definition digit_of (c : ascii) : option Z :=
  let k := Z.of_N (N_of_ascii c) in if (48 <=? k) && (k <=? 57) then Some (k - 48) else None.
(** a leading sign, and what follows it *)
Definition take_sign (s : string) : bool * string :=
  match s with
  | String c r => if Ascii.eqb c "+" then (false, r) else if Ascii.eqb c "-" then (true, r) else (false, s)
  | EmptyString => (false, s)
  end.
(** the digits at the beginning, and the rest *)
Fixpoint eat_digits (s : string) : string * string :=
  match s with
  | String c r => match digit_of c with
                  | Some _ => let (a, b) := eat_digits r in (String c a, b)
                  | None => (EmptyString, s)
                  end
  | EmptyString => (EmptyString, EmptyString)
  end.
(** the number of a run of digits, read from the left *)
Fixpoint number (acc : Z) (s : string) : Z :=
  match s with
  | String c r => match digit_of c with Some d => number (acc * 10 + d) r | None => acc end
  | EmptyString => acc
  end.

(** i64::from_str.  Simplification: std checks for overflow after every digit; the numbers only grow, so it comes to the same at the end. *)
Definition parse_i64 (s : string) : option Z :=
  let (neg, r) := take_sign s in
  let (a, rest) := eat_digits r in
  if seqb a "" then None else if negb (seqb rest "") then None
  else let z := if neg then - number 0 a else number 0 a in
       if (-9223372036854775808 <=? z) && (z <=? 9223372036854775807) then Some z else None.

(** f64::from_str: digits with a point and an exponent, rounded to the nearest float; the quotient of two whole numbers is rounded once *)
Definition quotient (s : bool) (n d : Z) : f64 := let '(q, e, l) := SFdiv_core_binary fprec femax n 0 d 0 in binary_round_aux fprec femax s q e l.
Definition dec_float (s : bool) (n e : Z) : f64 :=
  if n =? 0 then S754_zero s else if 0 <=? e then quotient s (n * 10 ^ e) 1 else quotient s n (10 ^ (- e)).
Definition is_e (c : ascii) : bool := orb (Ascii.eqb c "e") (Ascii.eqb c "E").
Definition parse_exp (s : string) : option Z :=
  let (neg, r) := take_sign s in
  let (a, rest) := eat_digits r in
  if seqb a "" then None else if negb (seqb rest "") then None else Some (if neg then - number 0 a else number 0 a).
(** whole digits, fraction digits and what is behind them *)
Definition parse_tail (a b tail : string) : option (Z * Z) :=
  if seqb (a ++ b)%string "" then None
  else match tail with
       | EmptyString => Some (number 0 (a ++ b)%string, - Z.of_nat (String.length b))
       | String c r => if is_e c then match parse_exp r with Some k => Some (number 0 (a ++ b)%string, k - Z.of_nat (String.length b)) | None => None end else None
       end.
Definition parse_decimal (s : string) : option (Z * Z) :=
  let (a, r) := eat_digits s in
  match r with
  | String c r' => if Ascii.eqb c "." then let (b, r2) := eat_digits r' in parse_tail a b r2 else parse_tail a "" r
  | EmptyString => parse_tail a "" r
  end.
Definition negate (x : f64) : f64 := SFopp x.
(** [named] are the names of what is not a number: [inf] and [NaN] up to Rust 1.54; from 1.55 on also [infinity], and all of them in any case of letters *)
Definition parse_f64 (named : string -> option f64) (s : string) : option f64 :=
  let (neg, r) := take_sign s in
  match parse_decimal r with
  | Some (n, e) => Some (dec_float neg n e)
  | None => match named r with Some x => Some (if neg then negate x else x) | None => None end
  end.
Definition names_1_54 (s : string) : option f64 := if seqb s "inf" then Some (S754_infinity false) else if seqb s "NaN" then Some fnan else None.
Definition lower (c : ascii) : ascii := let k := N_of_ascii c in if ((65 <=? k) && (k <=? 90))%N then ascii_of_N (k + 32) else c.
Fixpoint lowered (s : string) : string := match s with String c r => String (lower c) (lowered r) | EmptyString => EmptyString end.
Definition names_1_55 (s : string) : option f64 :=
  let l := lowered s in if orb (seqb l "inf") (seqb l "infinity") then Some (S754_infinity false) else if seqb l "nan" then Some fnan else None.

(** str::split_whitespace on the bytes of a text: [white_len] is the number of bytes of the white space (Unicode's White_Space) it begins with, or 0 *)
Definition white_len (bs : list N) : nat :=
  match bs with
  | b :: r =>
      if (((9 <=? b) && (b <=? 13)) || (b =? 32))%N then 1%nat
      else match r with
      | c :: r2 =>
          if ((b =? 194) && ((c =? 133) || (c =? 160)))%N then 2%nat
          else match r2 with
          | d :: _ =>
              if (((b =? 225) && (c =? 154) && (d =? 128)) ||
                  ((b =? 226) && (c =? 128) && (((128 <=? d) && (d <=? 138)) || (d =? 168) || (d =? 169) || (d =? 175))) ||
                  ((b =? 226) && (c =? 129) && (d =? 159)) || ((b =? 227) && (c =? 128) && (d =? 128)))%N then 3%nat else 0%nat
          | [] => 0%nat
          end
      | [] => 0%nat
      end
  | [] => 0%nat
  end.
Fixpoint str_of (bs : list N) : string := match bs with b :: r => String (ascii_of_N b) (str_of r) | [] => EmptyString end.
Definition flush_word (cur : list N) (ws : list string) : list string := match cur with [] => ws | _ => str_of cur :: ws end.
Fixpoint words_of (skip : nat) (cur bs : list N) : list string :=
  match bs with
  | [] => flush_word cur []
  | b :: r => match skip with
              | Datatypes.S k => words_of k cur r
              | O => match white_len bs with
                     | O => words_of O (cur ++ [b]) r
                     | Datatypes.S k => flush_word cur (words_of k [] r)
                     end
              end
  end.
Definition str_words (bs : list N) : list string := words_of O [] bs.
