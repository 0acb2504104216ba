(** * The payload functions of the programmable filter: src/filter/programmable_filter.rs *)
From Verif Require Import Base TelemetryModel FiltersModel.
Open Scope string_scope. Open Scope list_scope. Open Scope nat_scope.

(** Lua's values as the functions see them (mond and Lua are not in /repo):
    lua_tointeger (0 for what is no integer), lua_tonumber (0 for what is no number),
    lua_tolstring (None for what is neither string nor number), and the values the
    functions push.  A missing argument converts as nil does. *)
Class LuaLib := {
  lval : Type;
  to_integer : lval -> Z;
  to_number : lval -> f64;
  to_str : lval -> option string;
  lnil : lval;
  lstr : string -> lval;
  lnum : f64 -> lval;
  to_integer_range : forall v, (- 2 ^ 63 <= to_integer v < 2 ^ 63)%Z;
  to_integer_nil : to_integer lnil = 0%Z;
  to_str_nil : to_str lnil = None;
  to_str_lstr : forall s, to_str (lstr s) = Some s;
}.

(** idx, 16-22, as release builds compute it: usize arithmetic wraps *)
Definition pidx (n : Z) (top : nat) : Z :=
  if (n <? 0)%Z then ((Z.of_nat top - Z.abs n) mod 2 ^ 64)%Z else ((n - 1) mod 2 ^ 64)%Z.
(** the element an index expression reads; None: it panics *)
Definition pget {A} (n : Z) (l : list A) : option A :=
  if (pidx n (List.length l) <? Z.of_nat (List.length l))%Z then nth_error l (Z.to_nat (pidx n (List.length l))) else None.
(** the list with that element changed *)
Definition pset {A} (n : Z) (x : A) (l : list A) : list A :=
  let i := Z.to_nat (pidx n (List.length l)) in firstn i l ++ x :: skipn (1 + i) l.

Section Payload.
Context `{Q : QLib} `{L : LuaLib}.
(** Payload, 9-14, without the tags and the path, which no function changes *)
Record payload := mkPay { p_metrics : list telemetry; p_logs : list logline }.

(** the functions of PAYLOAD_LIB, 400-428, with their arguments behind the payload *)
Inductive call :=
| SetMetricName (i name : lval) | ClearLogs | ClearMetrics
| LogRemoveTag (i k : lval) | LogSetTag (i k v : lval) | LogTagValue (i k : lval)
| LogSetField (i k v : lval) | LogSetValue (i v : lval) | LogFieldValue (i k : lval)
| LogValue (i : lval) | LogPath (i : lval)
| MetricQuery (a b : lval)
| MetricRemoveTag (i k : lval) | MetricSetTag (i k v : lval) | MetricTagValue (i k : lval)
| PushLog (v : lval) | PushMetric (name v : lval) | MetricName (i : lval).

(** a function panics, raises a Lua error, or returns a value (functions returning
    nothing return nil) *)
Inductive answer := APanic | ARaise | ARet (p : payload) (v : lval).

Definition lopt (o : option string) : lval := match o with Some s => lstr s | None => lnil end.
Definition l_set_tags (tg : option tagmap) (l : logline) : logline := mkLog (l_time l) (l_path l) (l_value l) (l_fields l) tg.
Definition l_set_fields (f : tagmap) (l : logline) : logline := mkLog (l_time l) (l_path l) (l_value l) f (l_tags l).
Definition l_set_value (v : string) (l : logline) : logline := mkLog (l_time l) (l_path l) v (l_fields l) (l_tags l).
Definition t_set_name (n : string) (t : telemetry) : telemetry :=
  mkTelemetry n (t_value t) (t_persist t) (t_tags t) (t_timestamp t) (t_override_count t) (t_override_sum t).

(** global_tags and path of the filter, and time::now() *)
Variable gtags : tagmap.
Variable path : string.
Variable now : Z.

(** an access to a metric or a line that may panic *)
Definition with_metric (p : payload) (i : lval) (f : telemetry -> answer) : answer :=
  match pget (to_integer i) (p_metrics p) with Some m => f m | None => APanic end.
Definition with_log (p : payload) (i : lval) (f : logline -> answer) : answer :=
  match pget (to_integer i) (p_logs p) with Some l => f l | None => APanic end.
Definition set_metric (p : payload) (i : lval) (m : telemetry) : payload := mkPay (pset (to_integer i) m (p_metrics p)) (p_logs p).
Definition set_log (p : payload) (i : lval) (l : logline) : payload := mkPay (p_metrics p) (pset (to_integer i) l (p_logs p)).

(** The functions, 58-397.  The index is only used once the other arguments are found
    good.  Left out: a first argument that is not the payload, strings that are not
    UTF-8. *)
Definition invoke (p : payload) (c : call) : answer :=
  match c with
  | MetricName i => (* 59-65 *) with_metric p i (fun m => ARet p (lstr (t_name m)))
  | LogValue i => (* 68-74 *) with_log p i (fun l => ARet p (lstr (l_value l)))
  | LogPath i => (* 77-83 *) with_log p i (fun l => ARet p (lstr (l_path l)))
  | SetMetricName i n => (* 86-92: the right side of the assignment comes first *)
      match to_str n with
      | Some n => with_metric p i (fun m => ARet (set_metric p i (t_set_name n m)) lnil)
      | None => ARaise
      end
  | PushMetric n v => (* 95-115 *)
      match to_str n with
      | Some n =>
          match harden now (b_value (to_number v) (b_name n soft_new)) with
          | HOk m => ARet (mkPay (p_metrics p ++ [t_set_tags (overlay_tags gtags (t_tags m)) m]) (p_logs p)) lnil
          | _ => APanic
          end
      | None => ARet p lnil
      end
  | ClearMetrics => (* 118-123 *) ARet (mkPay [] (p_logs p)) lnil
  | PushLog v => (* 126-140 *)
      match to_str v with
      | Some v => ARet (mkPay (p_metrics p) (p_logs p ++ [mkLog now path v [] (overlay_tags gtags None)])) lnil
      | None => ARet p lnil
      end
  | ClearLogs => (* 143-148 *) ARet (mkPay (p_metrics p) []) lnil
  | LogTagValue i k => (* 167-188 *)
      match to_str k with
      | Some k => with_log p i (fun l => ARet p (lopt (get_from_tags k (l_tags l) gtags)))
      | None => ARet p lnil
      end
  | LogFieldValue i k => (* 191-210 *)
      match to_str k with
      | Some k => with_log p i (fun l => ARet p (lopt (tm_get k (l_fields l))))
      | None => ARet p lnil
      end
  | MetricTagValue i k => (* 213-234 *)
      match to_str k with
      | Some k => with_metric p i (fun m => ARet p (lopt (get_from_tags k (t_tags m) gtags)))
      | None => ARet p lnil
      end
  | MetricSetTag i k v => (* 237-262 *)
      match to_str k with
      | Some k =>
          match to_str v with
          | Some v => with_metric p i (fun m => let '(tg, old) := insert_tag k v (t_tags m) in
                        ARet (set_metric p i (t_set_tags tg m)) (lopt old))
          | None => ARet p lnil
          end
      | None => ARet p lnil
      end
  | LogSetTag i k v => (* 265-290 *)
      match to_str k with
      | Some k =>
          match to_str v with
          | Some v => with_log p i (fun l => let '(tg, old) := insert_tag k v (l_tags l) in
                        ARet (set_log p i (l_set_tags tg l)) (lopt old))
          | None => ARet p lnil
          end
      | None => ARet p lnil
      end
  | LogSetField i k v => (* 293-318 *)
      match to_str k with
      | Some k =>
          match to_str v with
          | Some v => with_log p i (fun l =>
                        ARet (set_log p i (l_set_fields (tm_insert k v (l_fields l)) l)) (lopt (tm_get k (l_fields l))))
          | None => ARet p lnil
          end
      | None => ARet p lnil
      end
  | LogSetValue i v => (* 321-335 *)
      match to_str v with
      | Some v => with_log p i (fun l => ARet (set_log p i (l_set_value v l)) lnil)
      | None => ARet p lnil
      end
  | MetricRemoveTag i k => (* 338-357 *)
      match to_str k with
      | Some k => with_metric p i (fun m => let '(tg, old) := remove_tag k (t_tags m) in
                    ARet (set_metric p i (t_set_tags tg m)) (lopt old))
      | None => ARet p lnil
      end
  | LogRemoveTag i k => (* 360-379 *)
      match to_str k with
      | Some k => with_log p i (fun l => let '(tg, old) := remove_tag k (l_tags l) in
                    ARet (set_log p i (l_set_tags tg l)) (lopt old))
      | None => ARet p lnil
      end
  | MetricQuery a b => (* 382-397: argument 2 is both the quantile and the index; argument 3 is not looked at *)
      with_metric p a (fun m => ARet p (match t_query m (to_number a) with Some v => lnum v | None => lnil end))
  end.

(** A call of a Lua function: it calls payload functions, goes on with what they
    answer (None: they raised an error, which the script may catch), and in the end
    returns or fails, leaving Lua's globals in some state.  Left out: scripts that
    never end. *)
Inductive lua (S : Type) :=
| Return (st : S)
| Fail (st : S)
| Call (c : call) (k : option lval -> lua S).
Arguments Return {S}. Arguments Fail {S}. Arguments Call {S}.

(** pcall, 605; None: a panic unwinds out of a function that C called *)
Fixpoint exec {S} (p : payload) (t : lua S) : option (S * lua_outcome) :=
  match t with
  | Return st => Some (st, LDone (p_logs p) (p_metrics p))
  | Fail st => Some (st, LError)
  | Call c k =>
      match invoke p c with
      | APanic => None
      | ARaise => exec p (k None)
      | ARet p' v => exec p' (k (Some v))
      end
  end.

(** a loaded script: its globals, and its functions by name *)
Record program := mkProgram { pr_state : Type; pr_fun : pr_state -> string -> option (lua pr_state) }.
Variable P : program.

(** the filter, 433-438, with the number of values on Lua's stack *)
Record lfilter := mkLF { lf_lua : pr_state P; lf_stack : N; lf_last : N }.

(** run_lua_func, 576-618: Some (globals, values on the stack, pushed to res, error).
    get_global pushes one value (590); a missing function leaves it there (591-593).
    pcall takes the function and the payload (600-603) off and, if the function
    failed, puts the error on (605), where it stays. *)
Definition lua_call (st : pr_state P) (stack : N) (func : string) (ms : list telemetry) (ls : list logline)
    : option (pr_state P * N * list event * option event) :=
  match pr_fun P st func with
  | None => Some (st, (stack + 1)%N, [], Some (failure_event path func now))
  | Some t =>
      match exec (mkPay ms ls) t with
      | None => None
      | Some (st', LDone logs metrics) => Some (st', stack, map ELog logs ++ map ETelemetry metrics, None)
      | Some (st', _) => Some (st', (stack + 1)%N, [], Some (failure_event path func now))
      end
  end.

(** process, 535-573 *)
Definition lua_process (f : lfilter) (ev : event) : option (lfilter * list event * option event) :=
  match ev with
  | ETelemetry m =>
      match lua_call (lf_lua f) (lf_stack f) "process_metric" [m] [] with
      | Some (st, stack, out, err) => Some (mkLF st stack (lf_last f), out, err)
      | None => None
      end
  | ETimerFlush idx =>
      if (idx <=? lf_last f)%N then Some (f, [], None)
      else match lua_call (lf_lua f) (lf_stack f) "tick" [] [] with
           | Some (st, stack, out, err) => Some (mkLF st stack (match err with None => idx | Some _ => lf_last f end), out ++ [ev], err)
           | None => None
           end
  | ELog l =>
      match lua_call (lf_lua f) (lf_stack f) "process_log" [] [l] with
      | Some (st, stack, out, err) => Some (mkLF st stack (lf_last f), out, err)
      | None => None
      end
  | ERaw _ => Some (f, [ev], None)
  | EShutdown => Some (f, [EShutdown], None)
  end.

(** all events given to the filter, one by one: what it pushed, each with the failure
    report that goes before it (src/filter/mod.rs:77-113); None: a panic *)
Fixpoint lua_run (f : lfilter) (evs : list event) : option (lfilter * list (list event * option event)) :=
  match evs with
  | [] => Some (f, [])
  | e :: r =>
      match lua_process f e with
      | None => None
      | Some (f', out, err) =>
          match lua_run f' r with Some (f'', outs) => Some (f'', (out, err) :: outs) | None => None end
      end
  end.

(** the script as the filter model of FiltersModel.v sees it: an arbitrary answer
    where it would panic *)
Definition as_script : script :=
  mkScript (pr_state P) (fun st func ms ls =>
    match pr_fun P st func with
    | None => (st, LNoFunction)
    | Some t => match exec (mkPay ms ls) t with Some r => r | None => (st, LError) end
    end).
End Payload.
Arguments Return {L S}. Arguments Fail {L S}. Arguments Call {L S}.
