(** * Model of the prometheus sink, src/sink/prometheus.rs.
    The HTTP server, the counters and the mutex (392-443, 656-674) are in ScrapeModel.v; here
    each of insert, purge and a scrape is one atomic step.  Not modelled: gzip, the wrapping of
    bucket totals at 2^64. *)
From Verif Require Import Base TelemetryModel FiltersModel WavefrontModel.
Open Scope string_scope. Open Scope list_scope. Open Scope nat_scope.

Section Prometheus.
Context `{Q : QLib}.

(** Accumulator, 95-104 *)
Inductive acc := APerp (t : telemetry) | AWin (cap : N) (sum : f64) (count : N) (samples : list telemetry).
(** kind 107-112 *)
Definition a_kind (a : acc) : method := match a with APerp t => t_kind t | AWin _ _ _ _ => MSummarize end.
(** purge 127-148: the kept samples and the number removed; [now] does not move during the loop;
    [as_i64]: the cast of cap *)
Definition a_purge (now : Z) (a : acc) : acc * nat :=
  match a with
  | APerp t => (APerp t, 0)
  | AWin cap sum count samples =>
      let keep := filter (fun t => negb (as_i64 cap <? abs64 (wrap64 (t_timestamp t - now)))%Z) samples in
      (AWin cap sum count keep, List.length samples - List.length keep)
  end.

(** f64::MAX *)
Definition f64_max : f64 := S754_finite false 9007199254740991 971.
(** the running count, 162-166 *)
Definition count_up (c : N) : N := if (18446744073709551615 - c <=? 1)%N then 1%N else (c + 1)%N.
(** the running sum, 171-175 *)
Definition sum_up (s v : f64) : f64 := if fleb (fsub f64_max v) s then fsub v (fsub f64_max s) else fadd s v.
Definition ts_cmp (ts : Z) (probe : telemetry) : comparison := Z.compare (t_timestamp probe) ts.
(** samples, 176-190 *)
Definition window_add (cap : N) (samples : list telemetry) (t : telemetry) : list telemetry :=
  match bsearch (ts_cmp (t_timestamp t)) samples with
  | Found i => update_at i (fun p => t_add p t) samples
  | Missing i =>
      let s := insert_at i t samples in
      if (cap <? N.of_nat (List.length s))%N then skipn (List.length s - N.to_nat cap) s else s
  end.
(** insert 150-194; [None]: an assertion or unwrap failed *)
Definition a_insert (a : acc) (t : telemetry) : option acc :=
  match a with
  | APerp p => Some (APerp (t_add p t))
  | AWin cap sum count samples =>
      match t_kind t, t_query t fone with
      | MSummarize, Some v =>
          let s := window_add cap samples t in
          if (N.of_nat (List.length s) <=? cap)%N then Some (AWin cap (sum_up sum v) (count_up count) s) else None
      | _, _ => None
      end
  end.

(** PrometheusAggr, 208-237 *)
Record aggr := mkAggr { pa_data : list (string * acc); pa_cap : N }.
(** new 326-331 *)
Definition pa_new (cap : N) : aggr := mkAggr [] cap.
Definition meth_eqb (a b : method) : bool :=
  match a, b with MSet, MSet | MSum, MSum | MSummarize, MSummarize | MHistogram, MHistogram => true | _, _ => false end.
(** insert 279-310; [None]: panic *)
Definition pa_insert (a : aggr) (t : telemetry) : option (aggr * bool) :=
  match alookup seqb (t_name t) (pa_data a) with
  | Some prev =>
      if meth_eqb (a_kind prev) (t_kind t)
      then match a_insert prev t with Some x => Some (mkAggr (ainsert seqb (t_name t) x (pa_data a)) (pa_cap a), true) | None => None end
      else Some (a, false)
  | None =>
      match t_kind t with
      | MSummarize => match t_query t fone with
                      | Some v => Some (mkAggr (ainsert seqb (t_name t) (AWin (pa_cap a) v 1 [t]) (pa_data a)) (pa_cap a), true)
                      | None => None
                      end
      | _ => Some (mkAggr (ainsert seqb (t_name t) (APerp t) (pa_data a)) (pa_cap a), true)
      end
  end.
(** purge 312-318, count 321-323 *)
Definition pa_purge (now : Z) (a : aggr) : aggr := mkAggr (map (fun kv => (fst kv, fst (a_purge now (snd kv)))) (pa_data a)) (pa_cap a).
Definition pa_purged (now : Z) (a : aggr) : nat := list_sum (map (fun kv => snd (a_purge now (snd kv))) (pa_data a)).
Definition pa_count (a : aggr) : nat := List.length (pa_data a).

(** Iter::next 342-384 on one accumulator; [None]: the window is empty and nothing is reported.
    harden never fails on a thawed summary, see PrometheusProofs. *)
Definition a_report (a : acc) : option (option telemetry) :=
  match a with
  | APerp t => Some (Some t)
  | AWin _ sum count [] => Some None
  | AWin _ sum count (s0 :: r) =>
      match harden 0 (b_count count (b_sample_sum sum (thaw (fold_left t_add r s0)))) with HOk t => Some (Some t) | _ => None end
  end.
(** reportable 260-264: the order is that of the hash map, here that of the list *)
Fixpoint reported (l : list acc) : option (list telemetry) :=
  match l with
  | [] => Some []
  | a :: r => match a_report a, reported r with
              | Some (Some t), Some ts => Some (t :: ts)
              | Some None, Some ts => Some ts
              | _, _ => None
              end
  end.
Definition pa_reportable (a : aggr) : option (list telemetry) := reported (map snd (pa_data a)).

(** the sink: deliver 661-669 and flush 656-659 *)
Definition pr_deliver (age : option N) (now : Z) (t : telemetry) (a : aggr) : option aggr :=
  let add := option_map fst (pa_insert a t) in
  match age with
  | Some n => if (abs64 (wrap64 (t_timestamp t - now)) <=? as_i64 n)%Z then add else Some a
  | None => add
  end.

(** histories of the aggregation *)
Inductive pop := PInsert (t : telemetry) | PPurge (now : Z).
Fixpoint pa_run (ops : list pop) (a : aggr) : option (aggr * list bool) :=
  match ops with
  | [] => Some (a, [])
  | PInsert t :: r =>
      match pa_insert a t with
      | Some (a', b) => match pa_run r a' with Some (a'', bs) => Some (a'', b :: bs) | None => None end
      | None => None
      end
  | PPurge now :: r => pa_run r (pa_purge now a)
  end.

(** ** exposition *)
(** sanitize 618-628, byte by byte *)
Definition ok_char (c : ascii) : bool :=
  let n := N_of_ascii c in
  (orb (orb (andb (97 <=? n) (n <=? 122)) (andb (65 <=? n) (n <=? 90))) (orb (andb (48 <=? n) (n <=? 57)) (orb (n =? 58) (n =? 95))))%N.
Fixpoint sanitize (s : string) : string :=
  match s with EmptyString => EmptyString | String c r => String (if ok_char c then c else "_"%char) (sanitize r) end.

(** A line of the exposition.  PType: write_type 486-497.  PSample name own tags value: with
    [own] the label written first (le or quantile, 537-553, 576-589), without it write_metric 473-484. *)
Inductive pnum := QF (x : f64) | QN (n : N).
Inductive pline := PType (name tname : string) | PSample (name : string) (own : option (string * string)) (tags : tagmap) (v : pnum).

Variable show_f : f64 -> string.
Variable show_n : N -> string.
Definition quote : string := String (Ascii.ascii_of_nat 34) EmptyString.
(** write_kv 446-455 *)
Definition kv (k v : string) : string := (k ++ "=" ++ quote ++ v ++ quote)%string.
(** write_tags 457-471 *)
Definition write_tags (tags : tagmap) : string :=
  match tags with
  | [] => ""
  | (k, v) :: r => ("{" ++ kv k v ++ String.concat "" (map (fun p => ", " ++ kv (fst p) (snd p)) r) ++ "}")%string
  end.
Definition show_num (v : pnum) : string := match v with QF x => show_f x | QN n => show_n n end.
Definition render_line (l : pline) : string :=
  match l with
  | PType name tname => ("# TYPE " ++ name ++ " " ++ tname ++ nl)%string
  | PSample name None tags v => (name ++ write_tags tags ++ " " ++ show_num v ++ nl)%string
  | PSample name (Some (k, x)) tags v =>
      (name ++ "{" ++ kv k x ++ String.concat "" (map (fun p => ", " ++ kv (fst p) (snd p)) tags) ++ "} " ++ show_num v ++ nl)%string
  end.

(** the bins of a histogram with running totals, 530-555 *)
Fixpoint bucket_lines (name : string) (tags : tagmap) (running : N) (bins : list (bound * N)) : list pline :=
  match bins with
  | [] => []
  | (b, n) :: r =>
      PSample name (Some ("le", match b with BFinite x => show_f x | BPosInf => "+Inf" end)) tags (QN (n + running))
      :: bucket_lines name tags (running + n) r
  end.
(** the quantiles of 576 *)
Definition quantiles : list f64 := [fofZ 0; fofZ 1; fratio 1 4; fratio 1 2; fratio 3 4; fratio 9 10; fratio 95 100; fratio 99 100; fratio 999 1000].
Fixpoint quantile_lines (name : string) (tags : tagmap) (t : telemetry) (qs : list f64) : option (list pline) :=
  match qs with
  | [] => Some []
  | q :: r => match t_query t q, quantile_lines name tags t r with
              | Some v, Some ls => Some (PSample name (Some ("quantile", show_f q)) tags (QF v) :: ls)
              | _, _ => None
              end
  end.
Definition totals (name : string) (tags : tagmap) (t : telemetry) : list pline :=
  [PSample (name ++ "_sum")%string None tags (QF (match t_samples_sum t with Some s => s | None => fzero end));
   PSample (name ++ "_count")%string None tags (QF (fofZ (Z.of_N (t_count t))))].
(** one turn of the loop of write_text, 504-601; [seen]: names whose TYPE line was written; [None]: unwrap of a query *)
Definition write_one (default : tagmap) (seen : list string) (t : telemetry) : option (list string * list pline) :=
  let name := sanitize (t_name t) in
  let tags := tag_iter (t_tags t) default in
  let ty tname := if existsb (seqb (t_name t)) seen then [] else [PType name tname] in
  let seen' := t_name t :: seen in
  match t_kind t with
  | MSum => match t_sum t with Some v => Some (seen', ty "counter" ++ [PSample name None tags (QF v)]) | None => Some (seen, []) end
  | MSet => match t_set t with Some v => Some (seen', ty "gauge" ++ [PSample name None tags (QF v)]) | None => Some (seen, []) end
  | MHistogram =>
      match t_bins t with
      | Some bins => Some (seen', ty "histogram" ++ bucket_lines name tags 0 bins ++ totals name tags t)
      | None => Some (seen, [])
      end
  | MSummarize =>
      match quantile_lines name tags t quantiles with
      | Some ls => Some (seen', ty "summary" ++ ls ++ totals name tags t)
      | None => None
      end
  end.
Fixpoint write_lines (default : tagmap) (seen : list string) (l : list telemetry) : option (list pline) :=
  match l with
  | [] => Some []
  | t :: r => match write_one default seen t with
              | Some (seen', ls) => match write_lines default seen' r with Some ls' => Some (ls ++ ls') | None => None end
              | None => None
              end
  end.
(** write_text 499-610 *)
Definition write_text (default : tagmap) (l : list telemetry) : option string :=
  option_map (fun ls => fold_right String.append "" (map render_line ls)) (write_lines default [] l).
End Prometheus.
