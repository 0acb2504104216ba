(** * What the claims about counters between scrapes speak of. *)
From Verif Require Import Base FloatFacts TelemetryModel.
(** no less than nothing: not negative, not "not a number" *)
Definition amount (v : f64) : Prop := f_ok v /\ fleb fzero v = true.
(** a text as it goes out *)
Definition sent_as (gzip : option (string -> string)) (text : string) : string := match gzip with Some z => z text | None => text end.
(** the number of samples of some points *)
Definition samples_in `{Q : QLib} (l : list telemetry) : N := sumN (map (fun u => value_count (t_value u)) l).
