(** * The console sink, src/sink/console.rs. *)
From Verif Require Import Base TelemetryModel BucketsModel.
Open Scope string_scope. Open Scope list_scope. Open Scope nat_scope.

(** What formatting gives: format_time of a time (console.rs:201-205; None: chrono's
    NaiveDateTime::from_timestamp panics when the year leaves its range), and
    to_string of f64, i64 and of the counts of a histogram. *)
Class Show := { show_time : Z -> option string; show_f : f64 -> string; show_z : Z -> string; show_n : N -> string }.

Section Console.
Context {Q : QLib} {S : Show}.
Variable hfun : list string -> N.

(** console.rs:14-19, without the flush interval *)
Record console := mkConsoleSink { cs_aggrs : buckets; cs_buffer : list logline; cs_tags : tagmap }.
(** init, console.rs:67-74 *)
Definition c_init (bin_width : Z) (tags : tagmap) : console := mkConsoleSink (b_new bin_width) [] tags.

(** one line, console.rs:95-99: print! of the line, of each tag, and the end of the
    row.  None = panic *)
Definition line_row (tags : tagmap) (l : logline) : option string :=
  match show_time (l_time l) with
  | None => None
  | Some t => Some (fold_left (fun r kv => r ++ " " ++ fst kv ++ "=" ++ snd kv) (tag_iter (l_tags l) tags) (t ++ " " ++ l_path l ++ ": " ++ l_value l))%string
  end.
(** the loop over the buffer, console.rs:94-100: the rows printed and whether it got to
    the end *)
Fixpoint line_rows (tags : tagmap) (ls : list logline) : list string * bool :=
  match ls with
  | [] => ([], true)
  | l :: r => match line_row tags l with
              | None => ([], false)
              | Some s => let '(rs, ok) := line_rows tags r in (s :: rs, ok)
              end
  end.

(** the rows pushed for one point, console.rs:112-183; a row is the text up to "\n" *)
Definition bin_row (t : telemetry) (b : bound * N) : string :=
  ("    " ++ t_name t ++ "_" ++ (match fst b with BFinite x => show_f x | BPosInf => "pos_inf" end) ++ "(" ++ show_z (t_timestamp t) ++ "): " ++ show_n (snd b))%string.
Definition value_row (t : telemetry) (f : f64) : string :=
  ("    " ++ t_name t ++ "(" ++ show_z (t_timestamp t) ++ "): " ++ show_f f)%string.
Definition stat_row (t : telemetry) (stat : string) (f : f64) : string :=
  ("    " ++ t_name t ++ ": " ++ stat ++ " " ++ show_f f)%string.
(** console.rs:161-168 *)
Definition stats : list (string * f64) :=
  [("min", fzero); ("max", fone); ("50", fratio 5 10); ("90", fratio 90 100); ("99", fratio 99 100); ("999", fratio 999 1000)].

(** the four texts under construction *)
Record report := mkReport { r_sums : list string; r_sets : list string; r_summaries : list string; r_histograms : list string }.
(** one round of the loop, console.rs:110-184 *)
Definition report_point (r : report) (t : telemetry) : report :=
  match t_kind t with
  | MHistogram =>
      match t_bins t with
      | Some bins => mkReport (r_sums r) (r_sets r) (r_summaries r) (r_histograms r ++ map (bin_row t) bins)
      | None => r
      end
  | MSum => match t_sum t with Some f => mkReport (r_sums r ++ [value_row t f]) (r_sets r) (r_summaries r) (r_histograms r) | None => r end
  | MSet => match t_set t with Some f => mkReport (r_sums r) (r_sets r ++ [value_row t f]) (r_summaries r) (r_histograms r) | None => r end
  | MSummarize =>
      mkReport (r_sums r) (r_sets r)
        (r_summaries r ++ flat_map (fun st => match t_query t (snd st) with Some f => [stat_row t (fst st) f] | None => [] end) stats)
        (r_histograms r)
  end.
Definition report_of (ts : list telemetry) : report := fold_left report_point ts (mkReport [] [] [] []).
(** console.rs:185-192 *)
Definition report_rows (r : report) : list string :=
  ["  sums:"] ++ r_sums r ++ ["  sets:"] ++ r_sets r ++ ["  summaries:"] ++ r_summaries r ++ ["  histograms:"] ++ r_histograms r.

(** flush, console.rs:92-195.  [d1] and [d2] are the two dates printed, [now] the clock
    of reset.  The rows printed, and the sink unless it panicked. *)
Definition c_flush (d1 d2 : string) (now : Z) (c : console) : list string * option console :=
  let '(ls, ok) := line_rows (cs_tags c) (cs_buffer c) in
  if ok then
    (["Flushing lines: " ++ d1]%string ++ ls ++ ["Flushing metrics: " ++ d2]%string ++ report_rows (report_of (b_iter (cs_aggrs c))),
     Some (mkConsoleSink (b_reset now (cs_aggrs c)) [] (cs_tags c)))
  else (["Flushing lines: " ++ d1]%string ++ ls, None).

(** deliver and deliver_line, console.rs:80-86; None = panic *)
Definition c_deliver (t : telemetry) (c : console) : option console :=
  match b_add hfun (cs_aggrs c) t with
  | Some a => Some (mkConsoleSink a (cs_buffer c) (cs_tags c))
  | None => None
  end.
Definition c_deliver_line (l : logline) (c : console) : console := mkConsoleSink (cs_aggrs c) (cs_buffer c ++ [l]) (cs_tags c).

(** What the sink's loop calls (src/sink/mod.rs): shutdown is a last flush
    (console.rs:197-199). *)
Inductive cop := CPoint (t : telemetry) | CLine (l : logline) | CFlush (d1 d2 : string) (now : Z).
Definition c_step (c : console) (o : cop) : list string * option console :=
  match o with
  | CPoint t => ([], c_deliver t c)
  | CLine l => ([], Some (c_deliver_line l c))
  | CFlush d1 d2 now => c_flush d1 d2 now c
  end.
(** the rows printed by a history, flush by flush *)
Fixpoint c_run (c : console) (os : list cop) : list (list string) * option console :=
  match os with
  | [] => ([], Some c)
  | o :: r =>
      let '(rows, c') := c_step c o in
      let mine := match o with CFlush _ _ _ => [rows] | _ => [] end in
      match c' with
      | None => (mine, None)
      | Some c' => let '(rest, c'') := c_run c' r in (mine ++ rest, c'')
      end
  end.
End Console.
