(** * The InfluxDB sink: src/sink/influxdb.rs.  Not modelled: the HTTP client (its answers are given), gzip, the URL. *)
From Verif Require Import Base TelemetryModel CacheModel WavefrontModel.
Open Scope string_scope. Open Scope list_scope. Open Scope nat_scope.

Section Influx.
Context `{Q : QLib}.
(** to_string of f64 and u64 *)
Variable show_f : f64 -> string.
Variable show_n : N -> string.

(** fmt_tags, influxdb.rs:78-85 *)
Definition i_tags (l : tagmap) : string :=
  fold_right (fun kv s => ("," ++ fst kv ++ "=" ++ snd kv ++ s)%string) "" l.

(** telem.timestamp.saturating_mul(1_000_000_000) as u64, influxdb.rs:122, 138, 163, 184 *)
Definition i_time (ts : Z) : N :=
  Z.to_N (Z.max i64_min (Z.min i64_max (ts * 1000000000)) mod 18446744073709551616).

(** the percentiles of influxdb.rs:170 *)
Definition i_percentiles : list f64 := [fratio 1 4; fratio 1 2; fratio 3 4; fratio 9 10; fratio 99 100; fone].

(** one line, influxdb.rs:114-126 (and 130-142, 150-167, 172-188): the number and the time go through the caches *)
Definition i_line (tags : tagmap) (t : telemetry) (suffix : string) (x : f64) : list piece :=
  [PStr (t_name t); PStr suffix; PStr (i_tags (tag_iter (t_tags t) tags)); PStr " "; PStr "value="; PF x; PStr " "; PN (i_time (t_timestamp t)); PStr nl].
(** the body of the loop of format_stats, influxdb.rs:110-191 *)
Definition i_point (tags : tagmap) (t : telemetry) : list piece :=
  match t_kind t with
  | MSum => match t_sum t with Some x => i_line tags t "" x | None => [] end
  | MSet => match t_set t with Some x => i_line tags t "" x | None => [] end
  | MHistogram =>
      match t_bins t with
      | Some bins => flat_map (fun b =>
          let bound_name := match fst b with BFinite x => ("le_" ++ show_f x)%string | BPosInf => "le_inf" end in
          i_line tags t ("." ++ bound_name)%string (fofZ (Z.of_N (snd b)))) bins
      | None => []
      end
  | MSummarize =>
      flat_map (fun p => match t_query t p with
                         | Some x => i_line tags t ("." ++ show_f p)%string x
                         | None => []
                         end) i_percentiles
  end.
(** format_stats, influxdb.rs:104-195; [None]: a cache panics *)
Definition i_format (tags : tagmap) (ts : list telemetry) : option string :=
  option_map snd (emit show_f show_n (fun _ => "") (mkCaches [] [] []) (flat_map (i_point tags) ts)).

(** time::delay, time.rs:42-57, in milliseconds *)
Definition delay_ms (attempts : N) : N :=
  match attempts with
  | 0 => 0 | 1 => 1 | 2 => 4 | 3 => 8 | 4 => 16 | 5 => 32 | 6 => 64 | 7 => 128 | 8 => 256 | _ => 512
  end%N.

(** struct InfluxDB, influxdb.rs:28-39 *)
Record influx := mkInflux { i_aggrs : list telemetry; i_attempts : N }.
Definition influx_init : influx := mkInflux [] 0.
(** the four counters, influxdb.rs:15-21 *)
Record icounts := mkICounts { ic_attempts : N; ic_success : N; ic_client : N; ic_server : N }.
(** the answer to a POST: a transport error or a status *)
Inductive ianswer := IError | IStatus (code : N).
Definition is_success (code : N) : bool := ((200 <=? code) && (code <? 300))%N.
Definition is_client_error (code : N) : bool := ((400 <=? code) && (code <? 500))%N.
Definition is_server_error (code : N) : bool := ((500 <=? code) && (code <? 600))%N.

(** the loop of flush, influxdb.rs:236-276: the number of failed attempts held afterwards, and for each POST its body and
    the milliseconds slept before it; [None]: still trying when the answers end *)
Fixpoint i_loop (body : string) (attempts : N) (c : icounts) (ans : list ianswer) : option (N * icounts * list (string * N)) :=
  match ans with
  | [] => None
  | a :: r =>
      let c := mkICounts (ic_attempts c + attempts) (ic_success c) (ic_client c) (ic_server c) in
      let post := (body, delay_ms attempts) in
      let again attempts c :=
        match i_loop body attempts c r with Some (n, c', posts) => Some (n, c', post :: posts) | None => None end in
      match a with
      | IError => again attempts c
      | IStatus code =>
          if is_success code then Some (attempts - 1, mkICounts (ic_attempts c) (ic_success c + 1) (ic_client c) (ic_server c), [post])
          else if is_client_error code then again (N.min (attempts + 1) 4294967295) (mkICounts (ic_attempts c) (ic_success c) (ic_client c + 1) (ic_server c))
          else if is_server_error code then again (N.min (attempts + 1) 4294967295) (mkICounts (ic_attempts c) (ic_success c) (ic_client c) (ic_server c + 1))
          else again attempts c
      end
  end%N.
(** outcome of a flush *)
Inductive iflush := IPanic | ITrying | IDone (s : influx) (c : icounts) (posts : list (string * N)).
(** flush, influxdb.rs:231-279 *)
Definition i_flush (tags : tagmap) (s : influx) (c : icounts) (ans : list ianswer) : iflush :=
  match i_format tags (i_aggrs s) with
  | None => IPanic
  | Some body =>
      match i_loop body (i_attempts s) c ans with
      | None => ITrying
      | Some (n, c', posts) => IDone (mkInflux [] n) c' posts
      end
  end.
(** deliver, influxdb.rs:285-287 *)
Definition i_deliver (t : telemetry) (s : influx) : influx := mkInflux (i_aggrs s ++ [t]) (i_attempts s).
(** valve_state, influxdb.rs:289-295; true is Open *)
Definition i_valve_open (s : influx) : bool := negb (100000 <? N.of_nat (List.length (i_aggrs s)))%N.

(** histories *)
Inductive iop := IDeliver (t : telemetry) | IFlush (ans : list ianswer).
(** the sink, its counters and the POSTs of each flush after some operations; [None]: panic or still in a flush *)
Fixpoint i_run (tags : tagmap) (ops : list iop) (s : influx) (c : icounts) : option (influx * icounts * list (list (string * N))) :=
  match ops with
  | [] => Some (s, c, [])
  | IDeliver t :: r => i_run tags r (i_deliver t s) c
  | IFlush ans :: r =>
      match i_flush tags s c ans with
      | IDone s' c' posts => match i_run tags r s' c' with Some (s'', c'', posts') => Some (s'', c'', posts :: posts') | None => None end
      | _ => None
      end
  end.
End Influx.
