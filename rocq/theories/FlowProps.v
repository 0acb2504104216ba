(** * Properties C14-C18, C24-C26, C52: how events move. *)
From Verif Require Import Base BaseFacts TelemetryModel FlowModel FlowSpec FlowProofs QExample TelemetryProps.
Open Scope string_scope. Open Scope list_scope.

(** ** C14: one verdict per forward and event; accepted events are enqueued
    once and in order, refused ones are counted. *)
Theorem C14_fan_out : forall (Q : QLib) (cs cs' : list chan) (evs : list event) (drops : N),
  send_all cs evs = (cs', drops) ->
  exists verdicts : list (list bool),
    Forall3 (fun c c' vs =>
        List.length vs = List.length evs /\
        settles_all (c_answers c) vs (c_answers c') /\
        c_queue c' = c_queue c ++ kept vs evs) cs cs' verdicts /\
    drops = N.of_nat (refusals verdicts).
Proof.
  intros Q cs cs' evs drops H. destruct (send_all_spec evs cs) as (vss & H1 & H2).
  rewrite H in H1, H2. exists vss. auto.
Qed.
Definition xt (n : string) (ts : Z) : @event xQ := ETelemetry (pt n (VSum (fofZ 1)) false None ts).
Example C14_ex :
  send_all [mkChan [] [SOther; SOk; SFull]; mkChan [EShutdown] []; mkChan [] [SFull; SOther; SOther; SOk]]
           [xt "a" 1; xt "b" 2] =
  ([mkChan [xt "a" 1] []; mkChan [EShutdown; xt "a" 1; xt "b" 2] []; mkChan [xt "b" 2] []], 2%N).
Proof. reflexivity. Qed.
Print Assumptions C14_fan_out.

(** ** C15 *)
Theorem C15_filter_output : forall (Q : QLib) (F : filt) (n : nat) (polls : list (option event)) (st : f_state F),
  never_fails F ->
  fr_sent (f_run F n polls st [] 0) =
  outputs F st (upto_shutdown (Nat.max 1 n) (received polls)).
Proof.
  intros Q F n polls st H. assert (Hc : fails_clean F) by (intros s e fe E; rewrite H in E; discriminate).
  destruct (f_run_sent F n polls Hc st 0) as [-> _]; [lia|]. rewrite Nat.sub_0_r. reflexivity.
Qed.
(** a filter that doubles telemetry and counts *)
Definition xdouble : @filt xQ := mkFilt nat (fun st e => (st + 1, [e; e], None)).
Example C15_ex : fr_sent (f_run xdouble 2 [None; Some (xt "a" 1); Some EShutdown; None; Some (xt "b" 2); Some EShutdown; Some (xt "c" 3)] 0 [] 0)
  = [xt "a" 1; xt "a" 1; EShutdown; xt "b" 2; xt "b" 2; EShutdown].
Proof. reflexivity. Qed.
Print Assumptions C15_filter_output.

(** ** C16.  The full statement (for every filter) is refuted in FiltersProps by
    the programmable filter.  It holds for filters that push nothing when they fail. *)
Theorem C16_failing_event_partial : forall (Q : QLib) (F : filt) (n : nat) (polls : list (option event)) (st : f_state F),
  fails_clean F ->
  fr_sent (f_run F n polls st [] 0) =
  outputs F st (upto_shutdown (Nat.max 1 n) (received polls)).
Proof.
  intros Q F n polls st Hc.
  destruct (f_run_sent F n polls Hc st 0) as [-> _]; [lia|]. rewrite Nat.sub_0_r. reflexivity.
Qed.
Definition xpicky : @filt xQ := mkFilt unit (fun st e => match e with ETimerFlush _ => (st, [], Some (xt "err" 0)) | _ => (st, [e], None) end).
Example C16_ex : fr_sent (f_run xpicky 1 [Some (xt "a" 1); Some (ETimerFlush 1); Some (xt "b" 2)] tt [] 0) = [xt "a" 1; xt "err" 0; xt "b" 2].
Proof. reflexivity. Qed.
Print Assumptions C16_failing_event_partial.

(** ** C17 *)
Theorem C17_filter_stops_on_nth_shutdown : forall (Q : QLib) (F : filt) (n : nat) (polls : list (option event)) (st : f_state F),
  let r := f_run F n polls st [] 0 in
  let k := Nat.max 1 n in
  (fr_stopped r = true <-> k <= shutdowns (received polls)) /\
  (exists before, received polls = before ++ received (fr_rest r) /\
     fr_state r = final F st before /\
     (fr_stopped r = true -> exists b, before = b ++ [EShutdown] /\ shutdowns b = k - 1) /\
     (fr_stopped r = false -> before = received polls)).
Proof.
  intros Q F n polls st r k.
  destruct (f_run_stop F n polls st [] 0) as (H1 & H2 & H3 & H4 & H5); [lia|]. cbv zeta in *. fold r in H1, H2, H3, H4, H5.
  rewrite Nat.sub_0_r in *. fold k in H1, H2, H3, H4, H5. split.
  - rewrite H1. apply Nat.leb_le.
  - exists (upto_shutdown k (received polls)). split; [assumption|]. split; [assumption|]. split.
    + intros Ht. specialize (H4 Ht). clear -H4. assert (Hk : 1 <= k) by lia. clearbody k.
      revert k Hk H4. generalize (received polls). intros l. induction l as [|e l IH]; intros k Hk H; [cbn in H; lia|].
      destruct e; cbn [upto_shutdown] in *.
      1,2,3,5: (destruct (IH k Hk H) as (b & -> & Hb); eexists (_ :: b); split; [reflexivity|exact Hb]).
      destruct k as [|[|k]]; [lia|exists []; auto|].
      change (shutdowns (EShutdown :: ?l)) with (S (shutdowns l)) in H. injection H as H.
      destruct (IH (S k) ltac:(lia) H) as (b & E & Hb). exists (EShutdown :: b). rewrite E. split; [reflexivity|].
      change (shutdowns (EShutdown :: b)) with (S (shutdowns b)). lia.
    + intros Hf. specialize (H5 Hf). rewrite H5, app_nil_r in H2. symmetry; exact H2.
Qed.
Example C17_ex : let r := f_run xdouble 2 [Some EShutdown; Some (xt "b" 2); Some EShutdown; Some (xt "c" 3)] 0 [] 0 in
  fr_stopped r = true /\ fr_rest r = [Some (xt "c" 3)] /\ fr_state r = 1 /\
  fr_stopped (f_run xdouble 3 [Some EShutdown; Some EShutdown] 0 [] 0) = false.
Proof. repeat split. Qed.
Print Assumptions C17_filter_stops_on_nth_shutdown.

(** ** C18.  Full statement: a filter that has stopped has consumed everything
    of every upstream.  False: an upstream filter with two upstreams of its own
    sends two markers, so a downstream filter stops while another upstream still
    runs, and loses its events. *)
Definition xpass : @filt xQ := mkFilt unit (fun st e => (st, [e], None)).
Theorem C18_no_early_stop_refuted : exists (Q : QLib) (F : filt) (st : f_state F)
    (a b c : list event) (polls1 polls2 : list (option event)),
  (* two sources feed the first filter, which runs to its end *)
  announces_once a /\ announces_once b /\ interleaves [a; b] (received polls1) /\
  fr_stopped (f_run F 2 polls1 st [] 0) = true /\
  (* the first filter and a third source feed the second *)
  announces_once c /\ interleaves [fr_sent (f_run F 2 polls1 st [] 0); c] (received polls2) /\
  fr_stopped (f_run F 2 polls2 st [] 0) = true /\
  (* which stops with the third source's event still queued *)
  exists e, is_data e = true /\ In (Some e) (fr_rest (f_run F 2 polls2 st [] 0)).
Proof.
  exists xQ, xpass, tt, [EShutdown], [EShutdown], [xt "lost" 1; EShutdown],
    [Some EShutdown; Some EShutdown], [Some EShutdown; Some EShutdown; Some (xt "lost" 1); Some EShutdown].
  assert (A : announces_once [@EShutdown xQ]) by (exists []; split; reflexivity).
  split; [exact A|]. split; [exact A|]. split.
  { cbn. apply (il_take [] _ [] [[EShutdown]]). apply (il_take [[]] _ [] []). apply il_done. repeat constructor. }
  split; [reflexivity|]. split; [exists [xt "lost" 1]; split; reflexivity|]. split.
  { cbn. apply (il_take [] _ [EShutdown] [[xt "lost" 1; EShutdown]]).
    apply (il_take [] _ [] [[xt "lost" 1; EShutdown]]).
    apply (il_take [[]] _ [EShutdown] []). apply (il_take [[]] _ [] []). apply il_done. repeat constructor. }
  split; [reflexivity|]. exists (xt "lost" 1). split; [reflexivity|]. cbn. auto.
Qed.

(** Holds when every upstream announces its end exactly once: a stopped filter
    has consumed every event of every upstream.  Missing: upstream filters with
    more than one upstream. *)
Theorem C18_no_early_stop_partial : forall (Q : QLib) (F : filt) (streams : list (list event)) (polls : list (option event))
    (later : list event) (st : f_state F),
  Forall announces_once streams -> streams <> [] ->
  interleaves streams (received polls ++ later) ->
  let r := f_run F (List.length streams) polls st [] 0 in
  fr_stopped r = true -> received (fr_rest r) = [] /\ later = [].
Proof.
  intros Q F streams polls later st HF Hne Hil r Hst. set (n := List.length streams) in *.
  assert (Hn : 1 <= n) by (subst n; destruct streams; [congruence|cbn; lia]).
  destruct (f_run_stop F n polls st [] 0) as (H1 & H2 & _ & H4 & _); [lia|]. cbv zeta in *. fold r in H1, H2, H4.
  replace (Nat.max 1 n - 0) with n in * by lia. specialize (H4 Hst).
  assert (Hsum : shutdowns (received polls ++ later) = n).
  { rewrite (interleaves_shutdowns _ _ Hil). subst n. clear -HF. induction HF as [|s ss Hs _ IH]; [reflexivity|].
    cbn. rewrite (announces_shutdowns _ Hs), IH. reflexivity. }
  assert (Hall : upto_shutdown n (received polls ++ later) = received polls ++ later).
  { eapply interleaves_last; eauto. eapply Forall_impl; [|exact HF]. intros s Hs; right; assumption. }
  assert (Hup : forall l l', 1 <= n -> shutdowns (upto_shutdown n l) = n -> upto_shutdown n (l ++ l') = upto_shutdown n l).
  { clear. generalize n; clear n. intros n l l'. revert n. induction l as [|e l IH]; intros n Hn H; [cbn in H; lia|].
    destruct e; cbn [app upto_shutdown] in *; try (f_equal; apply IH; assumption).
    destruct n as [|[|n]]; try reflexivity. f_equal. apply IH; [lia|].
    change (shutdowns (EShutdown :: ?x)) with (S (shutdowns x)) in H. lia. }
  rewrite Hup in Hall by assumption. rewrite H2 in Hall at 2. rewrite <- app_assoc in Hall.
  rewrite <- (app_nil_r (upto_shutdown n (received polls))) in Hall at 1. apply app_inv_head in Hall.
  symmetry in Hall. apply app_eq_nil in Hall. exact Hall.
Qed.

(** The exact law of shutdown markers: a filter with n upstreams forwards one
    marker per marker received, up to n. *)
Theorem C18_markers_forwarded : forall (Q : QLib) (F : filt) (n : nat) (polls : list (option event)) (st : f_state F),
  (forall st e, is_shutdown e = false -> shutdowns (snd (fst (f_process F st e))) = 0) ->
  (forall st e fe, is_shutdown e = false -> snd (f_process F st e) = Some fe -> is_shutdown fe = false) ->
  shutdowns (fr_sent (f_run F n polls st [] 0)) = Nat.min (shutdowns (received polls)) (Nat.max 1 n).
Proof.
  intros Q F n polls st H1 H2. rewrite (markers_forwarded F n polls st [] 0); auto; try lia.
Qed.
Example C18_ex : let r := f_run xpass 2 [Some (xt "a" 1); Some EShutdown; Some (xt "b" 2); Some EShutdown] tt [] 0 in
  interleaves [[xt "a" 1; EShutdown]; [xt "b" 2; EShutdown]] [xt "a" 1; EShutdown; xt "b" 2; EShutdown] /\
  fr_stopped r = true /\ fr_rest r = [] /\ shutdowns (fr_sent r) = 2 /\
  (forall st e, is_shutdown e = false -> shutdowns (snd (fst (f_process xpass st e))) = 0).
Proof.
  split; [|split; [reflexivity|split; [reflexivity|split; [reflexivity|intros st e He; unfold shutdowns; cbn; rewrite He; reflexivity]]]].
  apply (il_take [] _ [EShutdown] [[xt "b" 2; EShutdown]]). apply (il_take [] _ [] [[xt "b" 2; EShutdown]]).
  apply (il_take [[]] _ [EShutdown] []). apply (il_take [[]] _ [] []). apply il_done. repeat constructor.
Qed.
Print Assumptions C18_no_early_stop_refuted.
Print Assumptions C18_no_early_stop_partial.
Print Assumptions C18_markers_forwarded.

(** ** C24: what was delivered, is in hand or is still queued is exactly what
    arrived, in order: nothing lost, duplicated or reordered. *)
Theorem C24_delivered_once_in_order : forall (Q : QLib) (n : nat) (fi : option N) (ms : list sink_move),
  let s := sink_exec n fi ms sink_start in
  delivered (sr_calls s) ++ filter is_data (in_hand s ++ sr_queue s) = filter is_data (arrivals ms).
Proof. intros. subst s. rewrite sink_delivers. reflexivity. Qed.

(** While the valve stays closed the sink is only flushed, and the event is kept. *)
Theorem C24_closed_valve_only_flushes : forall (Q : QLib) (n : nat) (fi : option N) (ms : list sink_move) (e : event) (k : nat),
  let s := sink_exec n fi ms sink_start in
  let s' := sink_exec n fi (repeat (ValveSays false) k) s in
  sr_stopped s = false -> sr_hand s = Some e ->
  sr_calls s' = sr_calls s ++ repeat CFlushValve k /\ sr_hand s' = Some e /\ sr_queue s' = sr_queue s.
Proof.
  intros Q n fi ms e k s s' H1 H2. destruct (sink_valve_closed n fi k s e H1 H2) as (A & B & C & _). auto.
Qed.

(** Progress: once the valve opens, a data event in hand is delivered by that
    very turn. *)
Theorem C24_open_valve_delivers : forall (Q : QLib) (n : nat) (fi : option N) (ms : list sink_move) (e : event) (k : nat),
  let s := sink_exec n fi ms sink_start in
  let s' := sink_exec n fi (repeat (ValveSays false) k ++ [ValveSays true]) s in
  sr_stopped s = false -> sr_hand s = Some e -> is_data e = true ->
  sr_calls s' = sr_calls s ++ repeat CFlushValve k ++ [CDeliver e] /\ sr_hand s' = None /\ sr_stopped s' = false.
Proof.
  intros Q n fi ms e k s s' H1 H2 H3. destruct (sink_valve_closed n fi k s e H1 H2) as (A & B & C & D & _).
  subst s'. unfold sink_exec in *. rewrite fold_left_app. cbn [fold_left].
  unfold sink_step at 1 3 5. rewrite D, B, app_assoc, <- A.
  destruct e; try discriminate H3; repeat split.
Qed.
Definition xmoves : list (@sink_move xQ) :=
  [Arrive (xt "a" 1); Arrive (ETimerFlush 4); Poll; ValveSays false; ValveSays true; Poll; ValveSays true;
   Arrive (ETimerFlush 4); Arrive (xt "b" 2); Poll; ValveSays true; Poll; ValveSays false; Arrive (ETimerFlush 6)].
Example C24_ex : let s := sink_exec 1 (Some 2%N) xmoves sink_start in
  sr_calls s = [CFlushValve; CDeliver (xt "a" 1); CFlushTimer 4; CFlushValve] /\ sr_hand s = Some (xt "b" 2).
Proof. repeat split. Qed.
Print Assumptions C24_delivered_once_in_order.
Print Assumptions C24_closed_valve_only_flushes.
Print Assumptions C24_open_valve_delivers.

(** ** C25: [done] are the flush indices taken from the queue so far. *)
Theorem C25_flush_once_per_index : forall (Q : QLib) (n : nat) (fi : option N) (ms : list sink_move),
  let s := sink_exec n fi ms sink_start in
  exists done, flush_indices (arrivals ms) = done ++ flush_indices (in_hand s ++ sr_queue s) /\
    timer_flushes (sr_calls s) = due fi [] done.
Proof.
  intros Q n fi ms s. destruct (sink_seen n fi ms sink_start [] (sink_seen_start fi)) as (seen & (_ & _ & H) & E).
  exists seen. split; [symmetry; exact E|exact H].
Qed.
(** and so the indices flushed for are strictly increasing *)
Theorem C25_flushes_strictly_increase : forall (Q : QLib) (n : nat) (fi : option N) (ms : list sink_move),
  StronglySorted N.lt (timer_flushes (sr_calls (sink_exec n fi ms sink_start))).
Proof.
  intros Q n fi ms. destruct (C25_flush_once_per_index Q n fi ms) as (done & _ & ->).
  generalize (@nil N). induction done as [|i l IH]; intros earlier; cbn [due]; [constructor|].
  destruct fi as [k|]; [|apply IH].
  destruct (andb _ _) eqn:E; [|apply IH]. cbn [app]. constructor; [apply IH|].
  assert (G : forall l earlier j, In i earlier -> In j (due (Some k) earlier l) -> (i < j)%N).
  { clear. induction l as [|x l IH]; intros earlier j Hi Hj; cbn [due] in Hj; [destruct Hj|].
    rewrite in_app_iff in Hj. destruct Hj as [Hj|Hj].
    - destruct (andb _ _) eqn:E; [|destruct Hj]. destruct Hj as [<-|[]].
      apply andb_true_iff in E as [E _]. rewrite forallb_forall in E. apply N.ltb_lt, E. right; assumption.
    - eapply IH; [|exact Hj]. right; assumption. }
  apply Forall_forall. intros j Hj. eapply G; [|exact Hj]. left; reflexivity.
Qed.
Example C25_ex : timer_flushes (sr_calls (sink_exec 1 (Some 2%N)
   (flat_map (fun i => [Arrive (ETimerFlush i); Poll; ValveSays true]) [1; 2; 2; 1; 4; 3; 5; 6]%N) (@sink_start xQ))) = [2; 4; 6]%N.
Proof. reflexivity. Qed.
Print Assumptions C25_flush_once_per_index.
Print Assumptions C25_flushes_strictly_increase.

(** ** C26.  Full statement: a sink with n upstreams stops only after n markers.
    False: the inner loop does not leave the marker, so the first one counts n
    times. *)
Theorem C26_sink_waits_for_all_refuted : exists (Q : QLib) (n : nat) (fi : option N) (ms : list sink_move),
  let s := sink_exec n fi ms sink_start in
  n = 2 /\ sr_stopped s = true /\ shutdowns (arrivals ms) = 1 /\
  exists e, is_data e = true /\ In e (sr_queue s).
Proof.
  exists xQ, 2, None, [Arrive EShutdown; Arrive (xt "lost" 1); Poll; ValveSays true; ValveSays true]. cbv zeta.
  split; [reflexivity|]. split; [reflexivity|]. split; [reflexivity|].
  exists (xt "lost" 1). split; [reflexivity|]. left; reflexivity.
Qed.
(** What holds: a stopped sink stopped at the first marker in its queue, and
    delivered everything before it.  Missing: the markers of the other upstreams. *)
Theorem C26_sink_stops_at_first_marker_partial : forall (Q : QLib) (n : nat) (fi : option N) (ms : list sink_move),
  let s := sink_exec n fi ms sink_start in
  sr_stopped s = true ->
  exists before after, arrivals ms = before ++ EShutdown :: after /\ shutdowns before = 0 /\
    delivered (sr_calls s) = filter is_data before /\ sr_queue s = after /\
    exists cs, sr_calls s = cs ++ [CShutdown] /\ ~ In CShutdown cs.
Proof.
  intros Q n fi ms s Hs.
  destruct (sink_shut n fi ms sink_start []) as (done & E & H1 & H2); [exists []; repeat split|].
  fold s in E, H2. rewrite Hs in E. cbn [app] in E.
  exists done, (sr_queue s). split; [exact E|]. split; [assumption|]. split; [assumption|]. split; [reflexivity|].
  assert (Hh : handled_shutdown s) by (apply sink_handled; split; cbn; [discriminate|tauto]).
  destruct Hh as [Hh _]. apply (Hh Hs).
Qed.
(** and never without a marker *)
Theorem C26_no_stop_without_marker_partial : forall (Q : QLib) (n : nat) (fi : option N) (ms : list sink_move),
  shutdowns (arrivals ms) = 0 -> sr_stopped (sink_exec n fi ms sink_start) = false.
Proof.
  intros Q n fi ms H. destruct (sr_stopped _) eqn:E; [|reflexivity].
  destruct (C26_sink_stops_at_first_marker_partial Q n fi ms E) as (b & a & E1 & _).
  rewrite E1, shutdowns_app in H. change (shutdowns (EShutdown :: a)) with (S (shutdowns a)) in H. lia.
Qed.
Example C26_ex : let s := sink_exec 2 None [Arrive (xt "a" 1); Arrive EShutdown; Poll; ValveSays true; Poll; ValveSays true; ValveSays false; ValveSays true] (@sink_start xQ) in
  sr_stopped s = true /\ sr_calls s = [CDeliver (xt "a" 1); CFlushValve; CShutdown].
Proof. repeat split. Qed.
Print Assumptions C26_sink_waits_for_all_refuted.
Print Assumptions C26_sink_stops_at_first_marker_partial.
Print Assumptions C26_no_stop_without_marker_partial.

(** ** C52.  The documented 2**x ms fails at one attempt (1 ms). *)
Theorem C52_documented_delay_refuted : exists x, (1 <= x < 9)%N /\ delay_ms x <> (2 ^ x)%N.
Proof. exists 1%N. split; [lia|discriminate]. Qed.
Theorem C52_delay_partial :
  delay_ms 0 = 0%N /\
  (forall x y, (x <= y)%N -> (delay_ms x <= delay_ms y)%N) /\
  (forall x, (delay_ms x <= 512)%N) /\
  (forall x, (2 <= x < 9)%N -> delay_ms x = (2 ^ x)%N) /\
  (forall x, (9 <= x)%N -> delay_ms x = 512%N).
Proof.
  assert (Hbig : forall x, (9 <= x)%N -> delay_ms x = 512%N).
  { intros x Hx. unfold delay_ms. destruct x as [|p]; [lia|].
    do 4 (destruct p as [p|p|]; try lia; try reflexivity). }
  assert (Hsmall : forall x, (x < 9)%N -> In x [0;1;2;3;4;5;6;7;8]%N).
  { intros x Hx. cbn. lia. }
  assert (Hmax : forall x, (delay_ms x <= 512)%N).
  { intros x. destruct (N.lt_ge_cases x 9) as [H|H]; [|rewrite Hbig by assumption; lia].
    specialize (Hsmall x H). cbn in Hsmall. decompose [or] Hsmall; subst; cbn; lia. }
  split; [reflexivity|]. split; [|split; [exact Hmax|split; [|exact Hbig]]].
  - intros x y Hxy. destruct (N.lt_ge_cases y 9) as [H|H]; [|rewrite (Hbig y) by assumption; apply Hmax].
    assert (Hx := Hsmall x ltac:(lia)). assert (Hy := Hsmall y H). cbn in Hx, Hy.
    decompose [or] Hx; subst; decompose [or] Hy; subst; cbn; lia.
  - intros x Hx. assert (H := Hsmall x ltac:(lia)). cbn in H. decompose [or] H; subst; try lia; reflexivity.
Qed.
Example C52_ex : map delay_ms [0; 1; 2; 8; 9; 1000]%N = [0; 1; 4; 256; 512; 512]%N.
Proof. reflexivity. Qed.
Print Assumptions C52_documented_delay_refuted.
Print Assumptions C52_delay_partial.
