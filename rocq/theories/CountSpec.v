(** * Counting with floats. *)
From Verif Require Import Base TelemetryModel ParseModel ParseSpec NumberSpec.
Open Scope string_scope. Open Scope list_scope. Open Scope Z_scope.

Definition total (zs : list Z) : Z := fold_right Z.add 0 zs.
(** the room there is for exact counting: 2^53 in all, signs left aside *)
Definition countable (zs : list Z) : Prop := total (map Z.abs zs) <= 2 ^ 53.

(** a line that counts: when it was heard, the name, the count as text and as a number *)
Record count_line := mkCount { cl_time : Z; cl_name : string; cl_text : string; cl_count : Z }.
Definition count_text (l : count_line) : string := ParseSpec.line_text (cl_name l) (cl_text l) TCounter None.
Definition well_written (l : count_line) : Prop :=
  cl_name l <> "" /\ free_of ":" (cl_name l) /\ free_of "|" (cl_text l) /\ integer (cl_text l) (cl_count l) /\ cl_count l <> 0 /\ Z.abs (cl_count l) < 2 ^ 53 /\ ParseModel.lines (count_text l) = [count_text l].
(** the lines of a name heard in a bin *)
Definition counts_of (w : Z) (name : string) (k : Z) (ls : list count_line) : list Z :=
  map cl_count (filter (fun l => andb (String.eqb (cl_name l) name) (tbin w (cl_time l) =? k)) ls).

(** what a line says has no value: the value or the rate is none, or nothing is scaled without bounds, or the boundless to nothing *)
Definition no_value (st : stat) : Prop :=
  st_value st = fnan \/ exists r, st_rate st = Some r /\
    (r = fnan \/ (exists s s', st_value st = S754_zero s /\ fdiv fone r = S754_infinity s') \/ (exists s s', st_value st = S754_infinity s /\ fdiv fone r = S754_zero s')).
(** the line is of a counter, a gauge or a histogram with configured bounds *)
Definition plain `{Q : QLib} (cfg : statsd_cfg) (st : stat) : Prop :=
  match st_type st with TGauge | TCounter => True | TTimer | THistogram => first_mask (sc_masks cfg) (st_name st) <> None end.
