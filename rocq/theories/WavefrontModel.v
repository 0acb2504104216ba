(** * Model of the wavefront sink, src/sink/wavefront.rs.
    Not modelled: DNS and the loop over resolved addresses in connect (359-384, one answer
    per call here), the back-off sleep, the counters of 17-37 other than attempts,
    the panic of i64::MIN / -1 (needs a bin width of -1). *)
From Verif Require Import Base TelemetryModel BucketsModel FiltersModel CacheModel.
Open Scope string_scope. Open Scope list_scope. Open Scope nat_scope.

(** PadControl, wavefront.rs:40-57 *)
Record pad_control := mkPC { pc_set : bool; pc_sum : bool; pc_summarize : bool; pc_histogram : bool }.

Definition i64_max : Z := 9223372036854775807%Z.
Definition i64_min : Z := (-9223372036854775808)%Z.
(** saturating_add(1), saturating_sub(1) *)
Definition sat_add1 (z : Z) : Z := Z.min (z + 1) i64_max.
Definition sat_sub1 (z : Z) : Z := Z.max (z - 1) i64_min.

Section Wavefront.
Context `{Q : QLib}.
(** DefaultHasher over name, tags and kind, telemetry.rs:844-855; any function *)
Variable hkind : list string -> method -> N.
(** DefaultHasher over name and tags, for the buckets *)
Variable hfun : list string -> N.

(** Telemetry::hash, telemetry.rs:844-855 *)
Definition t_hash (t : telemetry) : N := hkind (series_key t) (t_kind t).

(** Pad, wavefront.rs:156-201 *)
Inductive pad := PZero (t : telemetry) (ts : Z) | PTelem (t : telemetry).
Definition p_point (p : pad) : telemetry := match p with PZero t _ | PTelem t => t end.
(** hash 163-167 *)
Definition p_hash (p : pad) : N := t_hash (p_point p).
(** zero_at 169-173 *)
Definition p_zero_at (p : pad) (ts : Z) : pad := PZero (p_point p) ts.
(** skip_pad 183-193 *)
Definition p_skip (c : pad_control) (p : pad) : bool :=
  match p with
  | PZero _ _ => true
  | PTelem t => match t_kind t with
                | MHistogram => negb (pc_histogram c)
                | MSet => negb (pc_set c)
                | MSum => negb (pc_sum c)
                | MSummarize => negb (pc_summarize c)
                end
  end.
(** timestamp 195-200 *)
Definition p_time (p : pad) : Z := match p with PZero _ ts => ts | PTelem t => t_timestamp t end.

(** Padding, wavefront.rs:220-228; [ps_q] is emit_q with its top first; the field last_hash is
    never read; orig, the iterator of the buckets, is the list of points still to come *)
Record pstate := mkPS { ps_orig : list telemetry; ps_q : list pad; ps_padded : list N }.
(** padding 203-218 *)
Definition padding (l : list telemetry) : pstate := mkPS l [] [].

(** the pops of 241-248 *)
Definition ps_pull (s : pstate) : option pad * pstate :=
  match ps_q s with
  | p :: q => (Some p, mkPS (ps_orig s) q (ps_padded s))
  | [] => match ps_orig s with
          | t :: r => (Some (PTelem t), mkPS r [] (ps_padded s))
          | [] => (None, s)
          end
  end.

Section Next.
Variable span : Z.
Variable last_seen : list (N * Z).
Variable control : pad_control.

Inductive nres := NDone | NItem (p : pad) (s : pstate) | NPanic.

(** Padding::next, wavefront.rs:233-341; NPanic: division by a zero span *)
Definition ps_next (s0 : pstate) : nres :=
  let '(nx, s1) := ps_pull s0 in
  let '(ny, s2) := ps_pull s1 in
  let push ps s := mkPS (ps_orig s) (ps ++ ps_q s) (ps_padded s) in
  let mark h s := mkPS (ps_orig s) (ps_q s) (h :: ps_padded s) in
  match nx, ny with
  | Some x, Some y =>
      if N.eqb (p_hash x) (p_hash y) then
        if p_skip control x then NItem x (push [y] s2)
        else
          (* 307-330 *)
          let gap s :=
            if Z.eqb span 0 then NPanic
            else
              let q := Z.quot (abs64 (wrap64 (p_time x - p_time y))) span in
              if orb (Z.eqb q 0) (Z.eqb q 1) then NItem x (push [y] s)
              else NItem x (push [p_zero_at x (sat_add1 (p_time x)); p_zero_at y (sat_sub1 (p_time y)); y] s) in
          if existsb (N.eqb (p_hash x)) (ps_padded s2) then gap s2
          else
            match alookup N.eqb (p_hash x) last_seen with
            | Some ts =>
                if (ts <? p_time x)%Z then
                  let s3 := mark (p_hash x) s2 in
                  if Z.eqb span 0 then NPanic
                  else if (1 <? Z.quot (wrap64 (p_time x - ts)) span)%Z then
                    NItem (p_zero_at x (sat_add1 ts)) (push [p_zero_at x (sat_sub1 (p_time x)); x; y] s3)
                  else gap s3
                else NItem x (push [y] s2)
            | None => gap s2
            end
      else NItem x (push [y] s2)
  | Some x, None =>
      if p_skip control x then NItem x s2
      else if existsb (N.eqb (p_hash x)) (ps_padded s2) then NItem x s2
      else
        match alookup N.eqb (p_hash x) last_seen with
        | Some ts =>
            if (ts <? p_time x)%Z then
              let s3 := mark (p_hash x) s2 in
              if Z.eqb span 0 then NPanic
              else if (1 <? Z.quot (wrap64 (p_time x - ts)) span)%Z then
                NItem (p_zero_at x (sat_add1 ts)) (push [p_zero_at x (sat_sub1 (p_time x)); x] s3)
              else NItem x s3
            else NItem x s2
        | None => NItem x s2
        end
  | None, _ => NDone
  end.

(** the items of the iterator; [fuel] bounds their number, [None]: more items, or a panic *)
Fixpoint ps_drain (fuel : nat) (s : pstate) : option (list pad) :=
  match ps_next s with
  | NDone => Some []
  | NPanic => None
  | NItem p s' => match fuel with
                  | O => None
                  | S f => match ps_drain f s' with Some r => Some (p :: r) | None => None end
                  end
  end.
End Next.

(** ** text *)
(** to_string of f64, usize and i64 *)
Variable show_f : f64 -> string.
Variable show_n : N -> string.
Variable show_z : Z -> string.

(** pieces of text pushed to [stats]: literal, cached value, cached count, cached time *)
Inductive piece := PStr (s : string) | PF (x : f64) | PN (n : N) | PT (z : Z).

(** fmt_tags 142-154 *)
Definition fmt_tags (l : tagmap) : string :=
  match l with
  | [] => ""
  | (k, v) :: r => (k ++ "=" ++ v ++ String.concat "" (map (fun kv => " " ++ fst kv ++ "=" ++ snd kv) r))%string
  end.

Definition nl : string := String (Ascii.ascii_of_nat 10) EmptyString.
(** value.mean() of a summary, telemetry.rs:188-202, 770-776; only called for summaries *)
Definition t_mean (t : telemetry) : f64 :=
  match t_value t with VQuant c _ => match c_cma c with Some m => m | None => fzero end | _ => fone end.

(** fmt_val 459-578; [None]: unwrap of an empty query *)
Definition fmt_val (tags : tagmap) (percentiles : list (string * f64)) (t : telemetry) : option (list piece) :=
  let tg := fmt_tags (tag_iter (t_tags t) tags) in
  let tail := [PStr " "; PT (t_timestamp t); PStr " "; PStr tg; PStr nl] in
  match t_kind t with
  | MHistogram =>
      match t_bins t with
      | Some bins => Some (flat_map (fun b => [PStr (t_name t); PStr "_"; match fst b with BFinite x => PF x | BPosInf => PStr "pos_inf" end;
                                               PStr " "; PN (snd b)] ++ tail) bins)
      | None => Some []
      end
  | MSum => match t_sum t with Some v => Some ([PStr (t_name t); PStr " "; PF v] ++ tail) | None => Some [] end
  | MSet => match t_set t with Some v => Some ([PStr (t_name t); PStr " "; PF v] ++ tail) | None => Some [] end
  | MSummarize =>
      let fix go ps :=
        match ps with
        | [] => Some ([PStr (t_name t); PStr ".count"; PStr " "; PN (t_count t)] ++ tail
                      ++ [PStr (t_name t); PStr ".mean"; PStr " "; PF (t_mean t)] ++ tail)
        | (stat, quant) :: r =>
            match t_query t quant, go r with
            | Some v, Some rest => Some ([PStr (t_name t); PStr "."; PStr stat; PStr " "; PF v] ++ tail ++ rest)
            | _, _ => None
            end
        end in
      go percentiles
  end.

Record caches := mkCaches { ca_f : list (f64 * string); ca_n : list (N * string); ca_z : list (Z * string) }.
(** push_str of the pieces, numbers through get_from_cache; [None]: panic of the cache *)
Fixpoint emit (c : caches) (ps : list piece) : option (caches * string) :=
  match ps with
  | [] => Some (c, "")
  | p :: r =>
      let first :=
        match p with
        | PStr s => Some (c, s)
        | PF x => match cache_get fcmp show_f (ca_f c) x with Some (f, s) => Some (mkCaches f (ca_n c) (ca_z c), s) | None => None end
        | PN n => match cache_get (fun a b => Some (N.compare a b)) show_n (ca_n c) n with Some (f, s) => Some (mkCaches (ca_f c) f (ca_z c), s) | None => None end
        | PT z => match cache_get (fun a b => Some (Z.compare a b)) show_z (ca_z c) z with Some (f, s) => Some (mkCaches (ca_f c) (ca_n c) f, s) | None => None end
        end in
      match first with
      | Some (c', s) => match emit c' r with Some (c'', s') => Some (c'', (s ++ s')%string) | None => None end
      | None => None
      end
  end.

(** the sink, wavefront.rs:61-75 *)
Record wcfg := mkWcfg {
  wc_span : Z; wc_percentiles : list (string * f64); wc_pad : pad_control; wc_tags : tagmap; wc_age : option N;
}.
Record wave := mkWave {
  w_aggrs : buckets;
  w_stats : string;
  w_last : list (N * Z);
  w_attempts : N;
  w_stream : bool;
}.
(** init 582-602; [stream]: whether the first connection succeeded *)
Definition wave_init (c : wcfg) (stream : bool) : wave := mkWave (b_new (wc_span c)) "" [] 0 stream.

(** the zero point of a pad, 406-413; [None]: unwrap *)
Definition zero_point (now : Z) (t : telemetry) (ts : Z) : option telemetry :=
  match harden now (b_value fzero (thaw t)) with HOk z => Some (t_set_timestamp ts z) | _ => None end.

(** one turn of the loop of format_stats, 400-447: text of the pad; persisted points are also
    added, one second later, to a scratch buffer which is dropped afterwards (421-424, 451) *)
Definition fmt_pad (c : wcfg) (now : Z) (scratch : buckets) (p : pad) : option (buckets * list piece) :=
  match p with
  | PZero t ts => match zero_point now t ts with
                  | Some z => match fmt_val (wc_tags c) (wc_percentiles c) z with Some ps => Some (scratch, ps) | None => None end
                  | None => None
                  end
  | PTelem t =>
      match (if t_persist t then b_add hfun scratch (t_set_timestamp (wrap64 (t_timestamp t + 1)) t) else Some scratch) with
      | Some scratch' => match fmt_val (wc_tags c) (wc_percentiles c) t with Some ps => Some (scratch', ps) | None => None end
      | None => None
      end
  end.
Fixpoint fmt_pads (c : wcfg) (now : Z) (scratch : buckets) (ps : list pad) : option (list piece) :=
  match ps with
  | [] => Some []
  | p :: r => match fmt_pad c now scratch p with
              | Some (scratch', a) => match fmt_pads c now scratch' r with Some b => Some (a ++ b) | None => None end
              | None => None
              end
  end.
(** the maps of last seen times, 398-400 and 448-450: an entry per hash, the last pad wins *)
Definition seen (ps : list pad) (last : list (N * Z)) : list (N * Z) :=
  fold_left (fun m p => ainsert N.eqb (p_hash p) (p_time p) m) ps last.

(** format_stats 389-457; [now] is the clock (zero points, reset) *)
Definition format_stats (c : wcfg) (fuel : nat) (now : Z) (w : wave) : option wave :=
  match ps_drain (wc_span c) (w_last w) (wc_pad c) fuel (padding (b_iter (w_aggrs w))) with
  | None => None
  | Some pads =>
      match fmt_pads c now (b_new (wc_span c)) pads with
      | None => None
      | Some ps =>
          match emit (mkCaches [] [] []) ps with
          | None => None
          | Some (_, text) => Some (mkWave (b_reset now (w_aggrs w)) (w_stats w ++ text)%string (seen pads (w_last w)) (w_attempts w) (w_stream w))
          end
      end
  end.

(** answers of the network: to a write (success, or failure after some bytes) or to a connect *)
Inductive wanswer := AWrite (ok : bool) (bytes : nat) | AConnect (ok : bool).
(** the loop of flush, 610-636: the writes made, in order, as (content, success, bytes accepted);
    [None]: still trying when the answers end.  An answer of the other kind is ignored. *)
Fixpoint flush_loop (now : Z) (w : wave) (ans : list wanswer) : option (wave * list (string * bool * nat)) :=
  match ans with
  | [] => None
  | a :: r =>
      match a, w_stream w with
      | AWrite true _, true => Some (mkWave (b_reset now (w_aggrs w)) "" (w_last w) 0 true, [(w_stats w, true, String.length (w_stats w))])
      | AWrite false n, true =>
          match flush_loop now (mkWave (w_aggrs w) (w_stats w) (w_last w) (N.min (w_attempts w + 1) 4294967295) false) r with
          | Some (w', l) => Some (w', (w_stats w, false, n) :: l)
          | None => None
          end
      | AConnect b, false => flush_loop now (mkWave (w_aggrs w) (w_stats w) (w_last w) (w_attempts w) b) r
      | _, _ => flush_loop now w r
      end
  end.
(** flush 608-637, shutdown 639-641 *)
Definition w_flush (c : wcfg) (fuel : nat) (now now' : Z) (ans : list wanswer) (w : wave) : option (wave * list (string * bool * nat)) :=
  match format_stats c fuel now w with Some w' => flush_loop now' w' ans | None => None end.

(** a u64 read as i64 *)
Definition as_i64 (n : N) : Z := wrap64 (Z.of_N n).
(** deliver 643-651 *)
Definition w_deliver (c : wcfg) (now : Z) (t : telemetry) (w : wave) : option wave :=
  let add := match b_add hfun (w_aggrs w) t with
             | Some b => Some (mkWave b (w_stats w) (w_last w) (w_attempts w) (w_stream w))
             | None => None
             end in
  match wc_age c with
  | Some age => if (abs64 (wrap64 (t_timestamp t - now)) <=? as_i64 age)%Z then add else Some w
  | None => add
  end.
(** valve_state 653-663 *)
Definition w_valve_open (w : wave) : bool := negb (10000 <? b_count (w_aggrs w))%N.

(** histories *)
Inductive wop := WDeliver (now : Z) (t : telemetry) | WFlush (fuel : nat) (now now' : Z) (ans : list wanswer).
Fixpoint w_run (c : wcfg) (ops : list wop) (w : wave) : option (wave * list (list (string * bool * nat))) :=
  match ops with
  | [] => Some (w, [])
  | WDeliver now t :: r => match w_deliver c now t w with Some w' => w_run c r w' | None => None end
  | WFlush fuel now now' ans :: r =>
      match w_flush c fuel now now' ans w with
      | Some (w', l) => match w_run c r w' with Some (w'', ls) => Some (w'', l :: ls) | None => None end
      | None => None
      end
  end.
End Wavefront.
