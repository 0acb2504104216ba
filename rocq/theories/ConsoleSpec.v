(** * What the console should show. *)
From Verif Require Import Base TelemetryModel TelemetrySpec BucketsModel BucketsSpec ConsoleModel.
Open Scope string_scope. Open Scope list_scope. Open Scope nat_scope.

Section Spec.
Context {Q : QLib} {S : Show}.

(** the lines and points of a history *)
Definition lines_of (os : list cop) : list logline := flat_map (fun o => match o with CLine l => [l] | _ => [] end) os.
Definition points_of (os : list cop) : list telemetry := flat_map (fun o => match o with CPoint t => [t] | _ => [] end) os.
(** what the buffer is told *)
Definition bops (os : list cop) : list bop :=
  flat_map (fun o => match o with CPoint t => [BAdd t] | CFlush _ _ now => [BReset now] | CLine _ => [] end) os.

(** the row of a line: time, path, text and the tags [tg] *)
Definition shows_line (l : logline) (tg : tagmap) (row : string) : Prop :=
  exists time, show_time (l_time l) = Some time /\
    row = (time ++ " " ++ l_path l ++ ": " ++ l_value l ++ String.concat "" (map (fun kv => " " ++ fst kv ++ "=" ++ snd kv) tg))%string.
(** [tg] is the tags of [l] with the [defaults] filled in, each key once *)
Definition filled (l : logline) (defaults tg : tagmap) : Prop :=
  NoDup (map fst tg) /\ forall k v, In (k, v) tg <-> layered (l_tags l) defaults k v.

(** the rows of a point in the section of its kind *)
Definition rows_of (t : telemetry) : list string :=
  match t_value t with
  | VSum x | VSet x => ["    " ++ t_name t ++ "(" ++ show_z (t_timestamp t) ++ "): " ++ show_f x]%string
  | VQuant c _ =>
      flat_map (fun q => match c_query c (snd q) with
                         | Some (_, x) => ["    " ++ t_name t ++ ": " ++ fst q ++ " " ++ show_f x]%string
                         | None => []
                         end)
        [("min", fzero); ("max", fone); ("50", fratio 1 2); ("90", fratio 9 10); ("99", fratio 99 100); ("999", fratio 999 1000)]
  | VHist h =>
      map (fun b => "    " ++ t_name t ++ "_" ++ match fst b with BFinite x => show_f x | BPosInf => "pos_inf" end
                    ++ "(" ++ show_z (t_timestamp t) ++ "): " ++ show_n (snd b))%string (h_bins h)
  end.
Definition kind_is (m : method) (t : telemetry) : bool := method_eqb (t_kind t) m.
(** the sections of the report over the points [ts] *)
Definition sections_of (ts : list telemetry) : list string :=
  ["  sums:"] ++ flat_map rows_of (filter (kind_is MSum) ts) ++ ["  sets:"] ++ flat_map rows_of (filter (kind_is MSet) ts) ++
  ["  summaries:"] ++ flat_map rows_of (filter (kind_is MSummarize) ts) ++ ["  histograms:"] ++ flat_map rows_of (filter (kind_is MHistogram) ts).
(** what one flush prints *)
Definition printed (d1 d2 : string) (ls : list string) (ts : list telemetry) : list string :=
  ["Flushing lines: " ++ d1]%string ++ ls ++ ["Flushing metrics: " ++ d2]%string ++ sections_of ts.

(** every time of a line can be written *)
Definition printable (os : list cop) : Prop := Forall (fun l => show_time (l_time l) <> None) (lines_of os).
(** [l] holds each point of the aggregation [M] once *)
Definition lists_map (w : Z) (l : list telemetry) (M : amap) : Prop :=
  represents w l M /\ NoDup (map (fun p => (series_key p, pbin w p)) l).
(** a history is cut at its flushes *)
Definition no_flush (os : list cop) : Prop := Forall (fun o => match o with CFlush _ _ _ => False | _ => True end) os.
Definition flushed (os : list cop) : Prop := os = [] \/ exists os0 d1 d2 now, os = os0 ++ [CFlush d1 d2 now].
End Spec.
