(** * Specification of the InfluxDB sink. *)
From Verif Require Import Base TelemetryModel WavefrontModel WavefrontSpec.
Open Scope string_scope. Open Scope list_scope. Open Scope nat_scope.

Section Spec.
Context `{Q : QLib}.
Variable show_f : f64 -> string.
Variable show_n : N -> string.

(** the numbers a point reports, each under a measurement name: the value of a Set or Sum, the count of every bin of a
    histogram, the six fixed percentiles of a summary as far as the summary answers them *)
Definition quarters : list f64 := [fratio 1 4; fratio 1 2; fratio 3 4; fratio 9 10; fratio 99 100; fone].
Definition measurements (t : telemetry) : list (string * f64) :=
  match t_value t with
  | VSet x | VSum x => [(t_name t, x)]
  | VHist h => map (fun b => ((t_name t ++ "." ++ match fst b with BFinite x => "le_" ++ show_f x | BPosInf => "le_inf" end)%string,
                              fofZ (Z.of_N (snd b)))) (h_bins h)
  | VQuant c _ => flat_map (fun p => match c_query c p with
                                     | Some (_, x) => [((t_name t ++ "." ++ show_f p)%string, x)]
                                     | None => []
                                     end) quarters
  end.
(** InfluxDB line protocol: measurement,tag=value,... value=number nanoseconds *)
Definition head_text (name : string) (tags : tagmap) : string :=
  (name ++ texts (map (fun kv => "," ++ fst kv ++ "=" ++ snd kv) tags))%string.
Definition influx_line (tags : tagmap) (time : N) (m : string * f64) : string :=
  (head_text (fst m) tags ++ " value=" ++ show_f (snd m) ++ " " ++ show_n time ++ nl)%string.
(** the time of a point in nanoseconds, for the seconds that fit *)
Definition nanoseconds (time : Z -> N) : Prop :=
  forall ts, (0 <= ts <= 9223372036)%Z -> Z.of_N (time ts) = (ts * 1000000000)%Z.
Definition influx_text (tags : tagmap) (time : Z -> N) (ts : list telemetry) : string :=
  texts (flat_map (fun t => map (influx_line (tag_iter (t_tags t) tags) (time (t_timestamp t))) (measurements t)) ts).
(** a point none of whose numbers is NaN *)
Definition no_nan (t : telemetry) : Prop := Forall (fun m => snd m <> fnan) (measurements t).

(** a name, key or value that needs no escaping in line protocol *)
Definition special (c : Ascii.ascii) : bool :=
  (Ascii.eqb c "," || Ascii.eqb c "=" || Ascii.eqb c " " || Ascii.eqb c (Ascii.ascii_of_nat 10))%char.
Definition clean (s : string) : Prop := Forall (fun c => special c = false) (list_ascii_of_string s).
Definition clean_tags (tags : tagmap) : Prop := Forall (fun kv => clean (fst kv) /\ clean (snd kv)) tags.
End Spec.

(** answers: InfluxDB took the batch (2xx), refused it (4xx, 5xx) or neither *)
Definition accepted (a : option N) : Prop := match a with Some code => (200 <= code < 300)%N | None => False end.
Definition refused (a : option N) : bool := match a with Some code => ((400 <=? code) && (code <? 600))%N | None => false end.
(** refusals held against the server before each POST, from [n] and the answers to the POSTs before the last *)
Fixpoint levels (n : N) (answers : list (option N)) : list N :=
  match answers with
  | [] => [n]
  | a :: r => n :: levels (if refused a then N.min (n + 1) 4294967295 else n) r
  end%N.
