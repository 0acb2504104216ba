(** * The four filters of src/filter/. *)
From Verif Require Import Base TelemetryModel FlowModel.
Open Scope string_scope. Open Scope list_scope. Open Scope nat_scope.

(** Two's complement 64-bit arithmetic: release builds wrap silently
    (Cargo.toml has no overflow-checks). *)
Definition wrap64 (z : Z) : Z :=
  (let m := z mod 2 ^ 64 in if m <? 2 ^ 63 then m else m - 2 ^ 64)%Z.
Arguments wrap64 : simpl never.
(** i64::abs, wrapping *)
Definition abs64 (z : Z) : Z := wrap64 (Z.abs z).

Section Filters.
Context `{Q : QLib}.

(** ** src/filter/delay_filter.rs *)

(** the four counters, 14-20 *)
Record delay_counts := mkDC { dc_telem_acc : N; dc_telem_rej : N; dc_log_acc : N; dc_log_rej : N }.
Definition dc_zero := mkDC 0 0 0 0.

(** (ts - time::now()).abs() < self.tolerance, 60 and 68 *)
Definition delay_accepts (tol now ts : Z) : bool := (abs64 (wrap64 (ts - now)) <? tol)%Z.

(** process, 53-80; [now] is what time::now() returns for this event *)
Definition delay_process (tol now : Z) (c : delay_counts) (ev : event) : delay_counts * list event :=
  match ev with
  | ETelemetry t =>
      if delay_accepts tol now (t_timestamp t)
      then (mkDC (dc_telem_acc c + 1) (dc_telem_rej c) (dc_log_acc c) (dc_log_rej c), [ev])
      else (mkDC (dc_telem_acc c) (dc_telem_rej c + 1) (dc_log_acc c) (dc_log_rej c), [])
  | ELog l =>
      if delay_accepts tol now (l_time l)
      then (mkDC (dc_telem_acc c) (dc_telem_rej c) (dc_log_acc c + 1) (dc_log_rej c), [ev])
      else (mkDC (dc_telem_acc c) (dc_telem_rej c) (dc_log_acc c) (dc_log_rej c + 1), [])
  | _ => (c, [ev])
  end%N.

(** a stream of events, each with the clock value read for it *)
Fixpoint delay_run (tol : Z) (c : delay_counts) (l : list (Z * event)) : delay_counts * list event :=
  match l with
  | [] => (c, [])
  | (now, e) :: r => let '(c', out) := delay_process tol now c e in
                     let '(c'', outs) := delay_run tol c' r in (c'', out ++ outs)
  end.

(** The filter under Filter::run; [clock k] is the clock when the k-th event is
    processed. *)
Definition delay_filt (tol : Z) (clock : nat -> Z) : filt :=
  mkFilt (nat * delay_counts)
    (fun st ev => let '(c, out) := delay_process tol (clock (fst st)) (snd st) ev in
                  ((S (fst st), c), out, None)).

(** ** src/filter/flush_boundary_filter.rs *)

(** Hold 27-31.  Simplification: [age] is unbounded (the code's usize would need
    2^64 flushes to overflow). *)
Record hold := mkHold { h_ts : Z; h_age : nat; h_events : list event }.

(** binary_search_by on the hold timestamps, 80 *)
Definition fb_search (holds : list hold) (ts : Z) : found :=
  bsearch (fun h => Z.compare (h_ts h) ts) holds.

(** the release loop, 68-74: (released events, holds kept) *)
Fixpoint fb_release (tol : nat) (holds : list hold) : list event * list hold :=
  match holds with
  | [] => ([], [])
  | h :: r => let '(out, kept) := fb_release tol r in
              if tol <? h_age h then (h_events h ++ out, kept) else (out, h :: kept)
  end.

(** process, 57-90 *)
Definition fb_process (tol : nat) (holds : list hold) (ev : event) : list hold * list event :=
  if is_timer_flush ev then
    let aged := map (fun h => mkHold (h_ts h) (h_age h + 1) (h_events h)) holds in
    let '(out, kept) := fb_release tol aged in
    (kept, out ++ [ev])
  else
    match e_timestamp ev with
    | Some ts =>
        match fb_search holds ts with
        | Found i => (update_at i (fun h => mkHold (h_ts h) (h_age h) (h_events h ++ [ev])) holds, [])
        | Missing i => (insert_at i (mkHold ts 0 [ev]) holds, [])
        end
    | None => (holds, [])
    end.

(** [fb_run tol holds evs]: holds after the stream [evs] and the output of each
    event *)
Fixpoint fb_run (tol : nat) (holds : list hold) (evs : list event) : list hold * list (list event) :=
  match evs with
  | [] => (holds, [])
  | e :: r => let '(holds', out) := fb_process tol holds e in
              let '(holds'', outs) := fb_run tol holds' r in (holds'', out :: outs)
  end.

Definition fb_filt (tol : nat) : filt :=
  mkFilt (list hold) (fun st ev => let '(st', out) := fb_process tol st ev in (st', out, None)).

(** ** src/filter/json_encode_filter.rs *)

(** serde_json::Value *)
Inductive jvalue :=
| JNull | JBool (b : bool) | JNum (digits : string) | JStr (s : string)
| JArr (l : list jvalue) | JObj (m : list (string * jvalue)).
(** serde_json::map::Map; an association list without duplicate keys (its
    iteration order only matters to the serializer) *)
Definition jobj := list (string * jvalue).

(** Map::from_iter: later pairs replace earlier ones *)
Definition jfrom_iter (l : list (string * jvalue)) : jobj :=
  fold_left (fun m kv => ainsert seqb (fst kv) (snd kv) m) l [].

(** merge_objects 145-155 *)
Definition jmerge1 (result obj : jobj) : jobj :=
  fold_left (fun m kv => if amem seqb (fst kv) m then m else ainsert seqb (fst kv) (snd kv) m) obj result.
Definition merge_objects (objs : list jobj) : jobj := fold_left jmerge1 objs [].

(** What is not in /repo: serde_json's parser and serializer, chrono's rfc3339
    rendering (None: NaiveDateTime::from_timestamp panics), the random order key. *)
Record jenv := mkJenv {
  j_parse : string -> option jvalue;
  j_print : jobj -> list N;
  j_rfc3339 : Z -> option string;
}.

(** The object that is serialized, 77-111.  json! makes an object of its three
    pairs. *)
Definition json_object (E : jenv) (parse_line : bool) (tags : tagmap) (time : string) (l : logline) : jobj :=
  let metadata := [("time", JStr time); ("path", JStr (l_path l));
                   ("tags", JObj (jfrom_iter (map (fun kv => (fst kv, JStr (snd kv))) (tag_iter (l_tags l) tags))))] in
  let value := match (if parse_line then j_parse E (l_value l) else None) with
               | Some (JObj obj) => obj
               | _ => [("message", JStr (l_value l))]
               end in
  merge_objects [value; jfrom_iter (map (fun kv => (fst kv, JStr (snd kv))) (l_fields l)); metadata].

(** process 68-129; [order] is random(); None is the panic of chrono.  The two
    counters JSON_ENCODE_LOG_* are left out. *)
Definition json_process (E : jenv) (parse_line : bool) (tags : tagmap) (order : N) (ev : event) : option (list event) :=
  match ev with
  | ELog l =>
      match j_rfc3339 E (l_time l) with
      | Some time => Some [ERaw (mkRaw order EncJSON (j_print E (json_object E parse_line tags time l)) None None)]
      | None => None
      end
  | _ => Some [ev]
  end.

(** the stream up to the first panic *)
Fixpoint json_run (E : jenv) (parse_line : bool) (tags : tagmap) (orders : nat -> N) (k : nat) (evs : list event) : list event * bool :=
  match evs with
  | [] => ([], true)
  | e :: r => match json_process E parse_line tags (orders k) e with
              | Some out => let '(outs, ok) := json_run E parse_line tags orders (S k) r in (out ++ outs, ok)
              | None => ([], false)
              end
  end.

(** ** src/filter/programmable_filter.rs *)

(** Result of calling a global Lua function on a payload, run_lua_func 590-617:
    the function does not exist; the script raised an error; or it returned,
    leaving logs and metrics in the payload. *)
Inductive lua_outcome :=
| LNoFunction
| LError
| LDone (logs : list logline) (metrics : list telemetry).

(** The script: an arbitrary state machine called with a function name and the
    payload's metrics and logs.  Left out: what the payload API functions do with
    it (60-397), and panics inside them. *)
Record script := mkScript {
  sc_state : Type;
  sc_call : sc_state -> string -> list telemetry -> list logline -> sc_state * lua_outcome;
}.

Record prog (S : script) := mkProg { pg_lua : sc_state S; pg_last : N }.
Arguments mkProg {S}. Arguments pg_lua {S}. Arguments pg_last {S}.

(** the failure report, 582-588; kind Sum, value 1.0, time now *)
Definition failure_event (path func : string) (now : Z) : event :=
  ETelemetry (mkTelemetry ("cernan.filter." ++ path ++ "." ++ func ++ ".failure")%string
                (VSum fone) false None now None None).

(** run_lua_func 576-618: (script state, pushed, error) *)
Definition run_lua (S : script) (path : string) (now : Z) (st : sc_state S) (func : string)
    (metrics : list telemetry) (logs : list logline) : sc_state S * list event * option event :=
  let '(st', o) := sc_call S st func metrics logs in
  match o with
  | LNoFunction | LError => (st', [], Some (failure_event path func now))
  | LDone logs' metrics' => (st', map ELog logs' ++ map ETelemetry metrics', None)
  end.

(** process 535-573 *)
Definition prog_process (S : script) (path : string) (now : Z) (p : prog S) (ev : event)
    : prog S * list event * option event :=
  match ev with
  | ETelemetry m =>
      let '(st, out, err) := run_lua S path now (pg_lua p) "process_metric" [m] [] in
      (mkProg st (pg_last p), out, err)
  | ETimerFlush idx =>
      if (idx <=? pg_last p)%N then (p, [], None)
      else
        let '(st, out, err) := run_lua S path now (pg_lua p) "tick" [] [] in
        (mkProg st (match err with None => idx | Some _ => pg_last p end), out ++ [ev], err)
  | ELog l =>
      let '(st, out, err) := run_lua S path now (pg_lua p) "process_log" [] [l] in
      (mkProg st (pg_last p), out, err)
  | ERaw _ => (p, [ev], None)
  | EShutdown => (p, [EShutdown], None)
  end.

(** Simplification: one clock value for the failure reports of a run. *)
Definition prog_filt (S : script) (path : string) (now : Z) : filt :=
  mkFilt (prog S) (prog_process S path now).
End Filters.
Arguments mkProg {Q S}. Arguments pg_lua {Q S}. Arguments pg_last {Q S}.
