(** * C133: what reaches the console is shown. *)
From Verif Require Import Base BaseFacts TelemetryModel TelemetrySpec BucketsModel BucketsSpec ConsoleModel ConsoleSpec ConsoleProofs ConsoleProps FlowModel FlowSpec FlowProofs QExample TelemetryProps FlowProps
  TopologyModel TopologySpec TopologyProofs TopologyProps NetworkModel NetworkSpec NetworkProofs NetworkProps LiveSpec LiveProofs LiveProps PulseSpec PulseProofs PulseProps MainModel MainSpec MainProofs MainProps ShownSpec ShownProofs.
From Coq Require Import Lia.
Open Scope string_scope. Open Scope list_scope. Open Scope nat_scope.

(** A console that has stopped has shown every line that was delivered to it, whatever the run. *)
Theorem C133_at_stop : forall (Q : QLib) (Sh : Show) (S : Type) proc (st0 : string -> S) fint g t tr s hfun w tags d, distinct_ids g -> wire g = Going t -> nrun proc st0 fint t tr s ->
  In d (g_sinks g) -> sr_stopped (n_sink s d) = true -> w <> 0%Z -> tm_ok tags ->
  console_shows hfun w tags (sr_calls (n_sink s d)) (loglines (delivered (sr_calls (n_sink s d)))).
Proof.
  intros Q Sh S proc st0 fint g t tr s hfun w tags d Hd Hw R Hk Hs W T. destruct (stopped_calls proc st0 fint g t Hd Hw tr s d R Hk Hs) as (cs & E).
  rewrite E at 1. replace (delivered (sr_calls (n_sink s d))) with (delivered cs); [apply shown_flushed; auto|].
  rewrite E. unfold delivered. rewrite flat_map_app. cbn. rewrite app_nil_r. reflexivity.
Qed.
(** A console that goes on shows, after any time, all the lines delivered to it by then: there is a source with a way to it,
    the filters before it hand the pulses of the timer on, no queue refuses one, and the timer is not near the end of its counter. *)
Theorem C133_live : forall (Q : QLib) (Sh : Show) (S : Type) proc (st0 : string -> S) fint g t x l, distinct_ids g -> wire g = Going t -> execution proc st0 fint t x l -> fair g x l -> timer_goes l ->
  forall hfun w tags u via d k, In u (map fst (g_natives g ++ g_sources g)) -> way g u via d -> In d (g_sinks g) -> handed proc st0 g d -> pulses_kept g l d -> fint d = Some k -> w <> 0%Z -> tm_ok tags ->
  forall i, (N.max 1 k * (N.of_nat (pulses (before l i)) + 1) < 2 ^ 64)%N ->
  exists j, i <= j /\ ((exists v, In v (via ++ [d]) /\ halted g (x j) v) \/ console_shows hfun w tags (sr_calls (n_sink (x j) d)) (loglines (delivered (sr_calls (n_sink (x i) d))))).
Proof.
  intros Q Sh S proc st0 fint g t x l Hd Hw Hx F T hfun w tags u via d k Hu Hwy Hk Hh K Hfi W Ht i Hb.
  destruct (flush_again proc st0 fint g t Hd Hw x l Hx F u via d k i Hu Hwy Hk Hh K T Hfi Hb) as (j & Hj & [H|(n & m1 & m2 & E)]); exists j; (split; [exact Hj|]); [auto|right].
  rewrite E, app_assoc. intros os Ops Hp Ho. destruct (shown_flushed hfun w tags _ (CFlushTimer n) m2 W Ht Logic.eq_refl os Ops Hp Ho) as (outs & c & more & Ec & Es).
  exists outs, c. unfold delivered in Es. rewrite flat_map_app in Es. unfold loglines in Es. rewrite flat_map_app, <- app_assoc in Es. eauto.
Qed.
(** From end to end: a line a source sends is shown by a console there is a way to, through filters that hand it on, if no
    queue is ever full, unless something on that way has stopped or the timer has come near the end of its counter. *)
Theorem C133_end_to_end : forall (Q : QLib) (Sh : Show) (S : Type) proc (st0 : string -> S) fint g t x l, distinct_ids g -> wire g = Going t -> execution proc st0 fint t x l -> fair g x l -> timer_goes l -> all_kept l ->
  forall hfun w tags id n i ln via d k, In id (map fst (g_natives g ++ g_sources g)) -> In (ELog ln) (emitted id n (before l i)) ->
  way g id via d -> In d (g_sinks g) -> Forall (passes proc (ELog ln)) via -> handed proc st0 g d -> fint d = Some k -> w <> 0%Z -> tm_ok tags ->
  exists j, i <= j /\ ((exists v, In v (via ++ [d]) /\ halted g (x j) v) \/ (2 ^ 64 <= N.max 1 k * (N.of_nat (pulses (before l j)) + 1))%N \/
    exists ls, In ln ls /\ console_shows hfun w tags (sr_calls (n_sink (x j) d)) ls).
Proof.
  intros Q Sh S proc st0 fint g t x l Hd Hw Hx F T K hfun w tags id n i ln via d k Hid He Hwy Hk Hp Hh Hfi W Ht.
  destruct (C129_end_to_end Q S proc st0 fint g t x l Hd Hw Hx F K id n i (ELog ln) via d Hid He Logic.eq_refl Hwy Hk Hp) as (j & Hj & [H|H]); [exists j; auto|].
  destruct (N.lt_ge_cases (N.max 1 k * (N.of_nat (pulses (before l j)) + 1)) (2 ^ 64)) as [Hb|Hb]; [|exists j; auto].
  destruct (C133_live Q Sh S proc st0 fint g t x l Hd Hw Hx F T hfun w tags id via d k Hid Hwy Hk Hh (fun i u v n _ => K i u v _) Hfi W Ht j Hb) as (j2 & Hj2 & [H2|H2]); exists j2; (split; [lia|]); [auto|].
  right. right. exists (loglines (delivered (sr_calls (n_sink (x j) d)))). split; [|exact H2]. apply in_flat_map. exists (ELog ln). split; [exact H|left; reflexivity].
Qed.
(** When main returns, every console has shown every line that arrived on its queue, if nothing has two upstreams,
    no filter makes shutdown markers and no queue was ever full. *)
Theorem C133_exit : forall (Q : QLib) (Sh : Show) (S : Type) proc (st0 : string -> S) fint g t so ko fo tr p,
  distinct_ids g -> wire g = Going t -> main_holds g so ko fo -> prun proc st0 fint t (chores so ko fo) tr p -> returned p ->
  quiet proc st0 -> single_upstreams g -> no_drops (net_trace tr) ->
  forall hfun w tags u d, upstream g u d -> In d (g_sinks g) -> w <> 0%Z -> tm_ok tags ->
  console_shows hfun w tags (sr_calls (n_sink (p_net p) d)) (loglines (arrived d (net_trace tr))).
Proof.
  intros Q Sh S proc st0 fint g t so ko fo tr p Hd Hw M R E Hq Hs Hn hfun w tags u d Hu Hk W T.
  assert (N := pi_net _ _ _ _ _ _ _ (run_inv _ _ _ _ _ _ _ R)).
  assert (St : sr_stopped (n_sink (p_net p) d) = true).
  { apply (C132_exit Q S proc st0 fint g t so ko fo tr p M R E (TSink d)). unfold threads. apply in_or_app. right. apply in_or_app. left. apply in_map. exact Hk. }
  assert (H := C133_at_stop Q Sh S proc st0 fint g t _ _ hfun w tags d Hd Hw N Hk St W T).
  rewrite (proj1 (C132_exit_delivered_partial Q S proc st0 fint g t so ko fo tr p Hd Hw M R E Hq Hs Hn u d Hu Hk)) in H.
  replace (loglines (arrived d (net_trace tr))) with (loglines (filter is_data (arrived d (net_trace tr)))); [exact H|].
  generalize (arrived d (net_trace tr)). intros es. unfold loglines. induction es as [|e es IH]; [reflexivity|]. destruct e; cbn [filter is_data flat_map]; rewrite ?IH; reflexivity.
Qed.

(** ** Examples: the execution of the example of C130, where a source sends a line in every round, with a console behind it *)
Example C133_ex : execution xpass (fun _ => tt) (fun _ => Some 2%N) xrow_started xx xl /\ fair xrow xx xl /\ timer_goes xl /\ all_kept xl /\
  In "sources.a" (map fst (g_natives xrow ++ g_sources xrow)) /\ In xlog (emitted "sources.a" 1 (before xl 1)) /\ way xrow "sources.a" ["filters.f"] "sinks.null" /\ In "sinks.null" (g_sinks xrow) /\
  Forall (passes xpass xlog) ["filters.f"] /\ handed xpass (fun _ => tt) xrow "sinks.null" /\ tm_ok [("k", "v")] /\
  exists j ls, In (mkLog 7 "p" "v" [] None) ls /\ ((exists v, In v (["filters.f"] ++ ["sinks.null"]) /\ halted xrow (xx j) v) \/
    (2 ^ 64 <= N.max 1 2 * (N.of_nat (pulses (before xl j)) + 1))%N \/ console_shows xh1 10 [("k", "v")] (sr_calls (n_sink (xx j) "sinks.null")) ls).
Proof.
  destruct C130_through_ex as (X & F & T & K & Wy & Hh & _ & Hin).
  assert (Hs : In "sources.a" (map fst (g_natives xrow ++ g_sources xrow))) by (left; reflexivity).
  assert (Hk : In "sinks.null" (g_sinks xrow)) by (left; reflexivity).
  assert (Ps : Forall (passes xpass xlog) ["filters.f"]) by (constructor; [intros st; split; [left; reflexivity|reflexivity]|constructor]).
  assert (Ht : tm_ok [("k", "v")]) by (constructor; [intros []|constructor]).
  repeat (split; [assumption|]).
  destruct (C133_end_to_end xQ xS unit _ _ _ xrow xrow_started xx xl xrow_ids xrow_wired X F T K xh1 10%Z [("k", "v")] "sources.a" 1 1 (mkLog 7 "p" "v" [] None) ["filters.f"] "sinks.null" 2%N Hs Hin Wy Hk Ps Hh Logic.eq_refl ltac:(discriminate) Ht) as (j & _ & H).
  destruct H as [H|[H|(ls & Hl & H)]]; [exists j, [mkLog 7 "p" "v" [] None]| exists j, [mkLog 7 "p" "v" [] None]|exists j, ls]; (split; [try exact Hl; left; reflexivity|auto]).
Qed.
(** and what a console does of such calls: the first line is shown, the second waits for the next flush *)
Example C133_ex_calls : console_ops [CDeliver (ELog (xline 7 "a" None)); CFlushTimer 2; CDeliver (ELog (xline 1 "b" None))] [CLine (xline 7 "a" None); CFlush "D" "E" 5; CLine (xline 1 "b" None)] /\
  fst (c_run xh1 (c_init 10 [("k", "v")]) [CLine (xline 7 "a" None); CFlush "D" "E" 5; CLine (xline 1 "b" None)]) =
    [["Flushing lines: D"; "07 p: a k=v"; "Flushing metrics: E"; "  sums:"; "  sets:"; "  summaries:"; "  histograms:"]].
Proof.
  split; [|lazy; reflexivity]. exists [[CLine (xline 7 "a" None)]; [CFlush "D" "E" 5]; [CLine (xline 1 "b" None)]]. split; [|reflexivity].
  constructor; [reflexivity|]. constructor; [exists "D", "E", 5%Z; reflexivity|]. constructor; [reflexivity|constructor].
Qed.

Print Assumptions C133_at_stop.
Print Assumptions C133_live.
Print Assumptions C133_end_to_end.
Print Assumptions C133_exit.
