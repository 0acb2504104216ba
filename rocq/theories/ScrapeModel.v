(** * The prometheus sink and its HTTP server sharing the aggregation:
    src/http.rs and src/sink/prometheus.rs *)
From Verif Require Import Base TelemetryModel FiltersModel WavefrontModel PrometheusModel.
Open Scope string_scope. Open Scope list_scope. Open Scope nat_scope.

Section Scrape.
Context `{Q : QLib}.
Variable show_f : f64 -> string.
Variable show_n : N -> string.
(** the configuration, src/sink/prometheus.rs:60-79: capacity_in_seconds, tags, age_threshold *)
Variable cap : N.
Variable default : tagmap.
Variable age : option N.
(** gzip: what the encoder makes of a text when it is on *)
Variable gzip : option (string -> string).
(** the order in which the hash map yields the points to the [n]th request *)
Variable shuffle : nat -> list telemetry -> list telemetry.

(** What the sink's thread is told: deliver 661-669, flush 656-659, shutdown 671-674 *)
Inductive sop := SDeliver (now : Z) (t : telemetry) | SFlush (now : Z) | SShutdown (now : Z).
Definition pop_of (o : sop) : pop := match o with SDeliver _ t => PInsert t | SFlush now | SShutdown now => PPurge now end.
(** the age check of deliver, 662-663: a point that fails it never reaches the lock *)
Definition in_age (o : sop) : bool :=
  match o, age with
  | SDeliver now t, Some n => (abs64 (wrap64 (t_timestamp t - now)) <=? as_i64 n)%Z
  | _, _ => true
  end.
(** what is done to the aggregation with the lock held; [None]: panic *)
Definition pop_apply (o : pop) (a : aggr) : option aggr :=
  match o with PInsert t => option_map fst (pa_insert a t) | PPurge now => Some (pa_purge now a) end.

(** the mutex *)
Inductive lock := LFree | LSink | LServer.
(** The sink's thread: between calls; at lock().unwrap(); holding the lock; in the join
    of http_srv.shutdown (src/thread.rs:43-48); returned; panicked. *)
Inductive sphase := SIdle | SWants (o : sop) | SHolds (o : sop) | SJoin | SEnd | SPanic.
(** The server's thread: in poll (src/http.rs:40); in recv_timeout (45-46); in handle
    before try_lock (src/sink/prometheus.rs:396); writing the text with the lock held
    (397-407); after the lock is let go, with the buffer (413); returned; panicked. *)
Inductive vphase := VPoll | VRecv | VTaken (r : nat) | VWrites (r : nat) | VBuffer (r : nat) (body : string) | VEnd | VPanic.

(** How a request ended: respond was called with status 200, these headers and this body,
    and went through or not; it was dropped without a response from here (tiny_http then
    answers 500); the thread panicked over it. *)
Inductive answer := A200 (headers : list (string * string)) (body : string) (sent : bool) | ADropped | APanic.
(** What happens, in order.  Kept for the statements; no move looks at it. *)
Inductive happening := EvApplied (o : pop) | EvTaken (r : nat) | EvAnswer (r : nat) (a : answer).

Record scrape := mkScrape {
  sc_agg : aggr;
  sc_lock : lock;
  sc_poisoned : bool;
  sc_sink : sphase;
  sc_server : vphase;
  sc_queue : list nat;       (** requests tiny_http has read and not handed out *)
  sc_signal : bool;          (** the readiness of the thread's shutdown registration *)
  sc_log : list happening;
  sc_success : N; sc_error : N;  (** PROMETHEUS_REPORT_SUCCESS and _ERROR *)
}.
(** init 631-650.  Left out: a port that cannot be bound (the unwrap in src/http.rs:73
    panics in the thread), the exchange counters. *)
Definition sc_start : scrape := mkScrape (pa_new cap) LFree false SIdle VPoll [] false [] 0 0.

Definition with_sink (s : scrape) (p : sphase) : scrape :=
  mkScrape (sc_agg s) (sc_lock s) (sc_poisoned s) p (sc_server s) (sc_queue s) (sc_signal s) (sc_log s) (sc_success s) (sc_error s).
Definition with_server (s : scrape) (p : vphase) : scrape :=
  mkScrape (sc_agg s) (sc_lock s) (sc_poisoned s) (sc_sink s) p (sc_queue s) (sc_signal s) (sc_log s) (sc_success s) (sc_error s).
Definition with_lock (s : scrape) (l : lock) : scrape :=
  mkScrape (sc_agg s) l (sc_poisoned s) (sc_sink s) (sc_server s) (sc_queue s) (sc_signal s) (sc_log s) (sc_success s) (sc_error s).
Definition with_event (s : scrape) (e : happening) : scrape :=
  mkScrape (sc_agg s) (sc_lock s) (sc_poisoned s) (sc_sink s) (sc_server s) (sc_queue s) (sc_signal s) (sc_log s ++ [e]) (sc_success s) (sc_error s).
(** a panic with the guard alive: the lock is let go and poisoned *)
Definition poison (s : scrape) : scrape :=
  mkScrape (sc_agg s) LFree true (sc_sink s) (sc_server s) (sc_queue s) (sc_signal s) (sc_log s) (sc_success s) (sc_error s).

(** One atomic piece of either thread, or of the world.  Simplification: applying an
    operation and letting the lock go is one move; so is writing the text. *)
Inductive smove :=
| MTold (o : sop)          (** the sink's thread enters deliver, flush or shutdown *)
| MLock                    (** its lock().unwrap() *)
| MApply                   (** the operation, and the guard dropped *)
| MJoin                    (** the join of shutdown returns *)
| MArrives (r : nat)       (** a request reaches tiny_http *)
| MPoll (fails : bool) | MRecv (fails : bool) | MTry | MWrite | MRespond (sent : bool).

(** the body and the headers, 414-423 *)
Definition body_of (text : string) : string := match gzip with Some z => z text | None => text end.
Definition headers : list (string * string) :=
  ("Content-Type", "text/plain; version=0.0.4") :: match gzip with Some _ => [("Content-Encoding", "gzip")] | None => [] end.
Definition expose (r : nat) (a : aggr) : option string :=
  match pa_reportable a with Some ts => write_text show_f show_n default (shuffle r ts) | None => None end.

Definition sc_step (s : scrape) (m : smove) : option scrape :=
  match m with
  | MTold o =>
      match sc_sink s with
      | SIdle => Some (if in_age o then with_sink s (SWants o) else s)
      | _ => None
      end
  | MLock =>
      match sc_sink s, sc_lock s with
      | SWants o, LFree => Some (if sc_poisoned s then with_sink s SPanic else with_lock (with_sink s (SHolds o)) LSink)
      | _, _ => None
      end
  | MApply =>
      match sc_sink s with
      | SHolds o =>
          match pop_apply (pop_of o) (sc_agg s) with
          | Some a =>
              Some (mkScrape a LFree (sc_poisoned s) (match o with SShutdown _ => SJoin | _ => SIdle end) (sc_server s) (sc_queue s)
                             (match o with SShutdown _ => true | _ => sc_signal s end) (sc_log s ++ [EvApplied (pop_of o)]) (sc_success s) (sc_error s))
          | None => Some (poison (with_sink s SPanic))
          end
      | _ => None
      end
  | MJoin =>
      match sc_sink s, sc_server s with
      | SJoin, VEnd => Some (with_sink s SEnd)
      | SJoin, VPanic => Some (with_sink s SPanic)
      | _, _ => None
      end
  | MArrives r =>
      Some (mkScrape (sc_agg s) (sc_lock s) (sc_poisoned s) (sc_sink s) (sc_server s) (sc_queue s ++ [r]) (sc_signal s) (sc_log s) (sc_success s) (sc_error s))
  | MPoll fails =>
      (** src/http.rs:40-43, 60-62 *)
      match sc_server s with
      | VPoll => Some (with_server s (if fails then VPanic else if sc_signal s then VEnd else VRecv))
      | _ => None
      end
  | MRecv fails =>
      (** 45-58 *)
      match sc_server s with
      | VRecv =>
          if fails then Some (with_server s VPanic) else
          match sc_queue s with
          | [] => Some (with_server s VPoll)
          | r :: q => Some (mkScrape (sc_agg s) (sc_lock s) (sc_poisoned s) (sc_sink s) (VTaken r) q (sc_signal s) (sc_log s ++ [EvTaken r]) (sc_success s) (sc_error s))
          end
      | _ => None
      end
  | MTry =>
      (** try_lock, src/sink/prometheus.rs:395-396: Err when it is held or poisoned *)
      match sc_server s with
      | VTaken r =>
          Some match sc_lock s, sc_poisoned s with
               | LFree, false => with_lock (with_server s (VWrites r)) LServer
               | _, _ => with_server s (VBuffer r "")
               end
      | _ => None
      end
  | MWrite =>
      match sc_server s with
      | VWrites r =>
          Some match expose r (sc_agg s) with
               | Some text => with_lock (with_server s (VBuffer r (body_of text))) LFree
               | None => with_event (poison (with_server s VPanic)) (EvAnswer r APanic)
               end
      | _ => None
      end
  | MRespond sent =>
      (** 413-442 *)
      match sc_server s with
      | VBuffer r body =>
          Some (if seqb body "" then with_event (with_server s VPoll) (EvAnswer r ADropped)
                else mkScrape (sc_agg s) (sc_lock s) (sc_poisoned s) (sc_sink s) VPoll (sc_queue s) (sc_signal s)
                              (sc_log s ++ [EvAnswer r (A200 headers body sent)])
                              (if sent then sc_success s + 1 else sc_success s)%N (if sent then sc_error s else sc_error s + 1)%N)
      | _ => None
      end
  end.
Fixpoint sc_run (ms : list smove) (s : scrape) : option scrape :=
  match ms with [] => Some s | m :: r => match sc_step s m with Some s' => sc_run r s' | None => None end end.
End Scrape.
