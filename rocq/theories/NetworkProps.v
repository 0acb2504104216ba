(** * Properties C84-C86: the process as a whole. *)
From Verif Require Import Base BaseFacts TelemetryModel FlowModel FlowSpec FlowProofs QExample TelemetryProps FlowProps FiltersModel TopologyModel TopologySpec TopologyProofs TopologyProps NetworkModel NetworkSpec NetworkProofs.
From Coq Require Import Relation_Operators.
Open Scope string_scope. Open Scope list_scope. Open Scope nat_scope.

(** ** C84: between the components nothing is lost, duplicated, reordered or invented *)
(** queues: what arrived was taken, in that order, or is still there *)
Theorem C84_queues : forall (Q : QLib) (S : Type) proc (st0 : string -> S) fint g t tr s, distinct_ids g -> wire g = Going t -> nrun proc st0 fint t tr s ->
  forall d, arrived d tr = polled d tr ++ n_queue s d.
Proof. intros Q S proc st0 fint g t tr s Hd Hw R. exact (i_queue _ _ _ _ _ _ (inv_run _ _ _ _ _ _ (wired_wf g t Hd Hw) R)). Qed.
(** sources: each thread tries to give each configured forward, and nobody else,
    each of its events once and in order *)
Theorem C84_sources : forall (Q : QLib) (S : Type) proc (st0 : string -> S) fint g t tr s, distinct_ids g -> wire g = Going t -> nrun proc st0 fint t tr s ->
  forall id fw k d, In (id, fw) (g_natives g ++ g_sources g) ->
  attempts (Src id k) d tr ++ pending s (Src id k) d = if existsb (seqb d) fw then emitted id k tr else [].
Proof.
  intros Q S proc st0 fint g t tr s Hd Hw R id fw k d Hin.
  assert (I := inv_run _ _ _ _ _ _ (wired_wf g t Hd Hw) R). change (pending s (Src id k) d) with (pend (n_out s (Src id k)) d). rewrite (i_link _ _ _ _ _ _ I).
  destruct (source_found g t Hd Hw id (in_map fst _ _ Hin)) as (sends & fw' & El & Hin' & [_ L]).
  assert (fw' = fw) by (apply (senders_unique g Hd id); unfold senders_of; apply in_or_app; auto). subst fw'.
  assert (E : mem d (sends_of t (Src id k)) = existsb (seqb d) fw).
  { cbn [sends_of]. rewrite El. apply eq_true_iff_eq. fold (mem d fw). rewrite !mem_In. apply L. }
  rewrite E. reflexivity.
Qed.
(** filters: the same for what its run loop makes of what it has taken; what that
    is, is stated in C15 to C17 *)
Theorem C84_filters : forall (Q : QLib) (S : Type) proc (st0 : string -> S) fint g t tr s, distinct_ids g -> wire g = Going t -> nrun proc st0 fint t tr s ->
  forall id fw, In (id, fw) (g_filters g) -> exists n,
  let r := f_run (mkFilt S (proc id)) n (map Some (polled id tr)) (st0 id) [] 0 in
  (forall d, attempts (Fil id) d tr ++ pending s (Fil id) d = if existsb (seqb d) fw then fr_sent r else []) /\
  fn_stopped (n_filter s id) = fr_stopped r /\
  exists sources, List.length sources = n /\ lists sources (fun u => upstream g u id /\ ~ In u fw).
Proof.
  intros Q S proc st0 fint g t tr s Hd Hw R id fw Hin.
  assert (I := inv_run _ _ _ _ _ _ (wired_wf g t Hd Hw) R).
  destruct (filter_found g t Hd Hw id (in_map fst _ _ Hin)) as (sources & sends & El).
  destruct (filter_lookup g t Hd Hw _ _ _ El) as (fw' & Hin' & [_ L] & Hl).
  assert (fw' = fw) by (apply (senders_unique g Hd id); unfold senders_of; apply in_or_app; auto). subst fw'.
  exists (List.length sources). cbv zeta. split; [|split].
  - intros d. change (pending s (Fil id) d) with (pend (n_out s (Fil id)) d). rewrite (i_link _ _ _ _ _ _ I).
    assert (E : mem d (sends_of t (Fil id)) = existsb (seqb d) fw).
    { cbn [sends_of]. rewrite El. apply eq_true_iff_eq. fold (mem d fw). rewrite !mem_In. apply L. }
    rewrite E. cbn [said]. rewrite El. reflexivity.
  - destruct (i_filter _ _ _ _ _ _ I id sources sends El) as [-> _]. reflexivity.
  - exists sources. auto.
Qed.
(** the timer: the same for the pulses 1, 2, 3, ... (modulo 2^64) and the forwards of the sources *)
Theorem C84_timer : forall (Q : QLib) (S : Type) proc (st0 : string -> S) fint g t tr s, distinct_ids g -> wire g = Going t -> nrun proc st0 fint t tr s ->
  forall d, ((exists id fw, In (id, fw) (g_natives g ++ g_sources g) /\ In d fw) ->
      attempts Tim d tr ++ pending s Tim d = map (fun i => ETimerFlush (N.of_nat i mod 2 ^ 64)%N) (seq 1 (pulses tr))) /\
    (~ (exists id fw, In (id, fw) (g_natives g ++ g_sources g) /\ In d fw) -> attempts Tim d tr = []).
Proof.
  intros Q S proc st0 fint g t tr s Hd Hw R d.
  assert (I := inv_run _ _ _ _ _ _ (wired_wf g t Hd Hw) R). assert (L := i_link _ _ _ _ _ _ I Tim d). assert (T := proj2 (C51_timer g t Hd Hw) d).
  change (pending s Tim d) with (pend (n_out s Tim) d). split; intros H.
  - apply T in H. change (In d (sends_of t Tim)) in H. apply mem_In in H. rewrite H in L. exact L.
  - destruct (mem d (sends_of t Tim)) eqn:E; [exfalso; apply H, T; apply mem_In; exact E|]. apply app_eq_nil in L. tauto.
Qed.
(** sinks: what was taken is delivered, once and in order, or in hand *)
Theorem C84_sinks : forall (Q : QLib) (S : Type) proc (st0 : string -> S) fint g t tr s, distinct_ids g -> wire g = Going t -> nrun proc st0 fint t tr s ->
  forall id, In id (g_sinks g) -> delivered (sr_calls (n_sink s id)) ++ filter is_data (in_hand (n_sink s id)) = filter is_data (polled id tr).
Proof.
  intros Q S proc st0 fint g t tr s Hd Hw R id Hin.
  assert (I := inv_run _ _ _ _ _ _ (wired_wf g t Hd Hw) R). destruct (sink_found g t Hd Hw id Hin) as (sources & El).
  destruct (i_sink _ _ _ _ _ _ I id sources El) as [Kq (ms & Km & Ka)].
  assert (D := C24_delivered_once_in_order Q (List.length sources) (fint id) ms). cbv zeta in D. rewrite <- Km, Kq, app_nil_r, Ka in D. exact D.
Qed.

(** a copy that no full queue refuses arrives: all that was tried is on the queue or was *)
Theorem C84_no_drops : forall (Q : QLib) u d tr, no_drops tr -> arrived_from u d tr = attempts u d tr.
Proof. intros Q u d tr. apply arrived_attempts_all. Qed.

(** ** C85: the process comes to its end.
    Full statement: once every source has stopped, every filter and every sink
    stops.  False: nothing that is forwarded to by nobody ever stops, and main joins it. *)
Definition xunfed : config := mkConfig ["sinks.console"; "sinks.null"] [] [] [("sources.statsd", ["sinks.null"])].
Definition xunfed_started : started := mkStarted [("sinks.console", []); ("sinks.null", ["sources.statsd"])] [] [("sources.statsd", ["sinks.null"])] ["sinks.null"].
Theorem C85_refuted : exists (Q : QLib) (S : Type) proc (st0 : string -> S) fint g t d, distinct_ids g /\ wire g = Going t /\ In d (g_sinks g) /\
  forall tr s, nrun proc st0 fint t tr s -> sr_stopped (n_sink s d) = false.
Proof.
  exists xQ, unit, (fun _ st e => (st, [e], None)), (fun _ => tt), (fun _ => None), xunfed, xunfed_started, "sinks.console".
  assert (Hd : distinct_ids xunfed) by (unfold distinct_ids; cbn; repeat (constructor; [cbn; intuition discriminate|]); constructor).
  assert (Hw : wire xunfed = Going xunfed_started) by reflexivity.
  split; [exact Hd|]. split; [exact Hw|]. split; [left; reflexivity|]. intros tr s R.
  assert (No : forall u, ~ upstream xunfed u "sinks.console") by (intros u (fw & [[= <- <-]|[]] & [F|[]]); discriminate F).
  apply (unfed_runs _ _ _ _ _ Hd Hw _ _ _ R No). left. reflexivity.
Qed.
(** In general, filters and sinks nobody forwards to never stop. *)
Theorem C85_never : forall (Q : QLib) (S : Type) proc (st0 : string -> S) fint g t tr s, distinct_ids g -> wire g = Going t -> nrun proc st0 fint t tr s ->
  forall d, (forall u, ~ upstream g u d) -> ~ halted g s d.
Proof.
  intros Q S proc st0 fint g t tr s Hd Hw R d No [[H1 H2]|[H1 H2]]; destruct (unfed_runs _ _ _ _ _ Hd Hw _ _ _ R No) as [A B]; [rewrite (A H1) in H2|rewrite (B H1) in H2]; discriminate.
Qed.
(** Every node that is fed (NetworkSpec) is over whenever nothing but the timer can
    go on, unless a full queue has dropped a marker. *)
Theorem C85_at_rest_partial : forall (Q : QLib) (S : Type) proc (st0 : string -> S) fint g t tr s, distinct_ids g -> wire g = Going t -> nrun proc st0 fint t tr s ->
  no_marker_dropped tr -> at_rest proc fint t s -> forall id, fed g id -> over g s id.
Proof. intros Q S proc st0 fint g t tr s Hd Hw R Hm Hr. exact (rest_over _ _ _ _ _ Hd Hw _ _ R Hm Hr). Qed.
(** There is no deadlock: at any point of any execution that has dropped no marker,
    any fed nodes can be brought to their end, without new input and without the timer. *)
Theorem C85_can_end_partial : forall (Q : QLib) (S : Type) proc (st0 : string -> S) fint g t tr s, distinct_ids g -> wire g = Going t -> nrun proc st0 fint t tr s ->
  no_marker_dropped tr -> forall ids, Forall (fed g) ids ->
  exists more s', nrun proc st0 fint t (tr ++ more) s' /\ Forall calm more /\ Forall (over g s') ids.
Proof.
  intros Q S proc st0 fint g t tr s Hd Hw R Hm ids Hf.
  destruct (all_announced _ _ _ g t (fed g) (fed_can_end _ _ _ _ _ Hd Hw) ids Hf tr s R Hm) as (tr' & s' & (R' & more & -> & C & _) & A).
  exists more, s'. split; [exact R'|]. split; [exact C|]. eapply Forall_impl; [|exact A]. intros x [H _]. exact H.
Qed.
(** ended nodes stay ended *)
Theorem C85_over_for_good : forall (Q : QLib) (S : Type) proc fint g t (s : @net Q S) l s' id, nstep proc fint t s l s' -> over g s id -> over g s' id.
Proof. intros Q S proc fint g t s l s' id. apply over_step. Qed.

(** ** C86: what was emitted before the shutdown is delivered.
    Full statement: when all is over, every event that a source sent to a sink has
    been delivered.  False already for two sources and one sink. *)
Notation xdata n := (@ETelemetry xQ (pt n (VSum (fofZ 1)) false None 1)).
Definition xtwo : config := mkConfig ["sinks.null"] [] [] [("sources.a", ["sinks.null"]); ("sources.b", ["sinks.null"])].
Definition xtwo_started : started := mkStarted [("sinks.null", ["sources.a"; "sources.b"])] [] [("sources.a", ["sinks.null"]); ("sources.b", ["sinks.null"])] ["sinks.null"].
Definition xtwo_trace : list (@label xQ) :=
  [LEmit "sources.b" 0 (xdata "lost"); LStop "sources.a"; LCopy (Src "sources.a" 0) "sinks.null" EShutdown true;
   LCopy (Src "sources.b" 0) "sinks.null" (xdata "lost") true; LStop "sources.b"; LCopy (Src "sources.b" 0) "sinks.null" EShutdown true;
   LPoll "sinks.null" EShutdown; LValve "sinks.null" true; LValve "sinks.null" true].
(** a filter that hands on what it gets *)
Definition xpass_proc (_ : string) (st : unit) (e : @event xQ) : unit * list event * option event := (st, [e], None).
Lemma xpass_quiet : quiet xpass_proc (fun _ => tt).
Proof. intros id. exists (fun _ => True). split; [exact Logic.I|]. intros st e _ H. split; [exact Logic.I|]. split; [unfold shutdowns; cbn; rewrite H; reflexivity|intros fe [=]]. Qed.
(** the steps with the values they compute named, to keep the examples small *)
Section Steps.
Context {Q : QLib} {S : Type}.
Variable proc : string -> S -> event -> S * list event * option event.
Variable fint : string -> option N.
Variable t : started.
Lemma do_copy s u d e r q : n_out s u = (d, e) :: r -> n_queue s d ++ [e] = q -> nstep proc fint t s (LCopy u d e true) (set_out u r (set_queue d q s)).
Proof. intros H <-. exact (step_copy proc fint t s u d e r true H). Qed.
Lemma do_filter s d sources sends e q x o : alookup seqb d (t_filters t) = Some (sources, sends) ->
  n_out s (Fil d) = [] -> fn_stopped (n_filter s d) = false -> n_queue s d = e :: q ->
  fst (filter_turn proc d (List.length sources) (n_filter s d) e) = x ->
  flat_map (copies sends) (snd (filter_turn proc d (List.length sources) (n_filter s d) e)) = o ->
  nstep proc fint t s (LPoll d e) (set_out (Fil d) o (set_filter d x (set_queue d q s))).
Proof. intros H1 H2 H3 H4 <- <-. exact (step_filter proc fint t s d sources sends e q H1 H2 H3 H4). Qed.
Lemma do_sink s d sources e q x : alookup seqb d (t_sinks t) = Some sources ->
  sr_stopped (n_sink s d) = false -> sr_hand (n_sink s d) = None -> n_queue s d = e :: q ->
  sink_step (List.length sources) (fint d) (sink_step (List.length sources) (fint d) (n_sink s d) (Arrive e)) Poll = x ->
  nstep proc fint t s (LPoll d e) (set_sink d x (set_queue d q s)).
Proof. intros H1 H2 H3 H4 <-. exact (step_sink proc fint t s d sources e q H1 H2 H3 H4). Qed.
Lemma do_valve s d sources is_open e x : alookup seqb d (t_sinks t) = Some sources ->
  sr_stopped (n_sink s d) = false -> sr_hand (n_sink s d) = Some e -> sink_step (List.length sources) (fint d) (n_sink s d) (ValveSays is_open) = x ->
  nstep proc fint t s (LValve d is_open) (set_sink d x s).
Proof. intros H1 H2 H3 <-. exact (step_valve proc fint t s d sources is_open e H1 H2 H3). Qed.
End Steps.
Ltac by_value := match goal with |- ?a = ?x => let v := eval lazy -[pt xQ] in a in unify x v; reflexivity end.
Ltac net_step :=
  first [ eapply step_emit; [reflexivity|reflexivity|reflexivity|reflexivity]
        | eapply step_stop; [reflexivity|reflexivity|intros [|[|k]]; reflexivity]
        | eapply step_pulse; reflexivity
        | eapply do_copy; [by_value|by_value]
        | eapply do_filter; [reflexivity|reflexivity|reflexivity|by_value|by_value|by_value]
        | eapply do_sink; [reflexivity|reflexivity|reflexivity|by_value|by_value]
        | eapply do_valve; [reflexivity|reflexivity|by_value|by_value] ].
Ltac net_do l :=
  match goal with R : nrun ?p ?s0 ?f ?t ?tr ?s |- _ =>
    let R' := fresh "R" in
    eassert (R' : nrun p s0 f t (tr ++ [l]) _); [refine (run_step _ _ _ _ _ _ _ _ R _); net_step|]; clear R; rename R' into R
  end.
Ltac net_all ls := match ls with ?l :: ?r => net_do l; net_all r | [] => idtac end.
Lemma stopped_for_good {Q : QLib} {S} proc fint t (s : @net Q S) l s' d : nstep proc fint t s l s' -> sr_stopped (n_sink s d) = true -> n_sink s' d = n_sink s d.
Proof.
  intros St H. destruct St as [i sends k e H1 H2 H3 H4|i sends H1 H2 H3|H1|u x e r ok H1|x sources sends e q H1 H2 H3 H4|x sources e q H1 H2 H3 H4|x sources o e H1 H2 H3];
    try reflexivity; try (destruct ok; reflexivity); cbn [n_sink set_sink set_queue]; unfold upd; destruct (seqb x d) eqn:E; try reflexivity; apply seqb_eq in E; subst x; congruence.
Qed.
Theorem C86_refuted : exists (Q : QLib) (S : Type) proc (st0 : string -> S) fint g t tr s id e d, distinct_ids g /\ wire g = Going t /\ quiet proc st0 /\
  nrun proc st0 fint t tr s /\ no_drops tr /\
  Forall (over g s) (map fst (g_natives g ++ g_sources g) ++ map fst (g_filters g) ++ g_sinks g) /\
  In e (emitted id 0 tr) /\ In e (arrived d tr) /\ is_data e = true /\ In d (g_sinks g) /\
  forall s', clos_refl_trans_1n _ (fun a b => exists l, nstep proc fint t a l b) s s' -> ~ In e (delivered (sr_calls (n_sink s' d))).
Proof.
  exists xQ, unit, xpass_proc, (fun _ => tt), (fun _ => None), xtwo, xtwo_started, xtwo_trace.
  assert (R := run_start xpass_proc (fun _ => tt) (fun _ => None) xtwo_started).
  let ls := eval unfold xtwo_trace in xtwo_trace in net_all ls.
  cbn [app] in R. fold xtwo_trace in R.
  match type of R with nrun _ _ _ _ _ ?s => exists s end.
  exists "sources.b", (xdata "lost"), "sinks.null".
  assert (Hd : distinct_ids xtwo) by (unfold distinct_ids; cbn; repeat (constructor; [cbn; intuition discriminate|]); constructor).
  split; [exact Hd|]. split; [reflexivity|]. split; [exact xpass_quiet|]. split; [exact R|].
  split; [intros u d e H; repeat (destruct H as [H|H]; [discriminate H|]); exact H|].
  split; [repeat (constructor; [split; [|split]; first [intros _; reflexivity | clear; cbn [In map fst app g_natives g_sources g_filters g_sinks xtwo]; intuition discriminate]|]); constructor|].
  split; [left; reflexivity|]. split; [right; left; reflexivity|]. split; [reflexivity|]. split; [left; reflexivity|].
  match type of R with nrun _ _ _ _ _ ?x => assert (B : sr_stopped (n_sink x "sinks.null") = true /\ delivered (sr_calls (n_sink x "sinks.null")) = []) by (split; reflexivity); set (st := x) in * end.
  clearbody st. clear R. intros s' C. induction C as [x|x y z [l St] _ IH]; destruct B as [B1 B2]; [rewrite B2; exact (fun H => H)|].
  apply IH. rewrite (stopped_for_good _ _ _ _ _ _ _ St B1). auto.
Qed.
(** What does hold: where nothing has two upstreams and no filter makes markers of
    its own, whatever has stopped had nothing left to take: all that forward to it
    were over before and had sent it all they had, only pulses are left behind. *)
Theorem C86_orderly_partial : forall (Q : QLib) (S : Type) proc (st0 : string -> S) fint g t tr s, distinct_ids g -> wire g = Going t -> nrun proc st0 fint t tr s ->
  quiet proc st0 -> single_upstreams g -> forall u d, upstream g u d -> halted g s d ->
  over g s u /\ Forall is_pulse (n_queue s d) /\ forall w, thread_of u w -> pending s w d = [].
Proof. intros Q S proc st0 fint g t tr s Hd Hw R Hq Hs u d. exact (orderly _ _ _ _ _ Hd Hw _ _ _ _ R Hq Hs). Qed.
Lemma Forall_update_at {A} (P : A -> Prop) f : (forall x, P x -> P (f x)) -> forall l i, Forall P l -> Forall P (update_at i f l).
Proof. intros Hf. induction l as [|x l IH]; intros [|i] H; inversion H; subst; cbn; constructor; auto. Qed.
Lemma Forall_insert_at {A} (P : A -> Prop) x : P x -> forall l i, Forall P l -> Forall P (insert_at i x l).
Proof. intros Hx l i H. rewrite insert_at_split. apply Forall_forall. rewrite Forall_forall in H. intros y Hy. rewrite <- (firstn_skipn i l) in H. apply in_app_or in Hy as [Hy|[<-|Hy]]; [apply H; apply in_or_app; auto|exact Hx|apply H; apply in_or_app; auto]. Qed.
(** The delay filter, the flush boundary filter and the programmable filter, whatever
    its script, make no markers of their own.  (The JSON encoder makes none either,
    C42; it is not a [filt] here because it may panic.) *)
Theorem C86_quiet_filters : forall (Q : QLib),
  (forall tol clock, quiet_filter (delay_filt tol clock) (0, dc_zero)) /\
  (forall tol, quiet_filter (fb_filt tol) []) /\
  (forall sc path now st, quiet_filter (prog_filt sc path now) (mkProg st 0%N)).
Proof.
  intros Q. split; [|split].
  - intros tol clock. exists (fun _ => True). split; [exact Logic.I|]. intros [k c] e _ H. cbn [f_process delay_filt fst snd].
    destruct e; try discriminate H; cbn [delay_process]; try (destruct (delay_accepts _ _ _)); cbn [fst snd]; repeat split; intros ? [=].
  - intros tol. exists (Forall (fun h => shutdowns (h_events h) = 0)). split; [constructor|]. intros st e Hg H. cbn [f_process fb_filt].
    assert (He : shutdowns [e] = 0) by (unfold shutdowns; cbn [filter]; rewrite H; reflexivity).
    unfold fb_process. destruct (is_timer_flush e).
    + assert (R : forall hs, Forall (fun h => shutdowns (h_events h) = 0) hs -> shutdowns (fst (fb_release tol hs)) = 0 /\ Forall (fun h => shutdowns (h_events h) = 0) (snd (fb_release tol hs))).
      { induction 1 as [|h hs Hh _ [I1 I2]]; [split; [reflexivity|constructor]|]. cbn [fb_release]. destruct (fb_release tol hs) as [o k]. cbn [fst snd] in *.
        destruct (tol <? h_age h); cbn [fst snd]; [rewrite shutdowns_app, Hh, I1; auto|auto]. }
      destruct (R (map (fun h => mkHold (h_ts h) (h_age h + 1) (h_events h)) st)) as [R1 R2]; [apply Forall_map; exact Hg|].
      destruct (fb_release tol _) as [o k]. cbn [fst snd] in *. split; [exact R2|]. split; [rewrite shutdowns_app, R1, He; reflexivity|intros ? [=]].
    + destruct (e_timestamp e) as [ts|]; [|cbn [fst snd]; split; [exact Hg|split; [reflexivity|intros ? [=]]]].
      destruct (fb_search st ts) as [i|i]; cbn [fst snd]; (split; [|split; [reflexivity|intros ? [=]]]).
      * apply Forall_update_at; [|exact Hg]. intros h Hh. cbn [h_events]. rewrite shutdowns_app, Hh, He. reflexivity.
      * apply Forall_insert_at; [exact He|exact Hg].
  - intros sc path now st. exists (fun _ => True). split; [exact Logic.I|]. intros p e _ H. split; [exact Logic.I|].
    assert (M : forall a b, shutdowns (map ELog a ++ map ETelemetry b) = 0).
    { intros a b. rewrite shutdowns_app. replace (shutdowns (map ELog a)) with 0 by (induction a; auto). induction b; auto. }
    cbn [f_process prog_filt]. destruct e as [m|l|i| |r]; try discriminate H; cbn [prog_process].
    + unfold run_lua. destruct (sc_call sc _ _ _ _) as [st' [| |ls ms]]; cbn [fst snd]; (split; [first [reflexivity|apply M]|intros ? [= <-]; reflexivity]) || (split; [apply M|intros ? [=]]).
    + unfold run_lua. destruct (sc_call sc _ _ _ _) as [st' [| |ls ms]]; cbn [fst snd]; (split; [first [reflexivity|apply M]|intros ? [= <-]; reflexivity]) || (split; [apply M|intros ? [=]]).
    + destruct (i <=? pg_last p)%N; [split; [reflexivity|intros ? [=]]|].
      unfold run_lua. destruct (sc_call sc _ _ _ _) as [st' [| |ls ms]]; cbn [fst snd]; (split; [first [reflexivity|rewrite shutdowns_app, M; reflexivity]|]); first [intros ? [= <-]; reflexivity|intros ? [=]].
    + split; [reflexivity|intros ? [=]].
Qed.
Lemma pulse_data {Q : QLib} (l : list event) : Forall is_pulse l -> filter is_data l = [].
Proof. induction 1 as [|e l [i ->] _ IH]; [reflexivity|exact IH]. Qed.
Lemma f_run_01 {Q : QLib} F polls : forall st buf shut, f_run F 0 polls st buf shut = f_run F 1 polls st buf shut.
Proof.
  induction polls as [|[e|] polls IH]; intros st buf shut; [reflexivity| |exact (IH st buf shut)].
  destruct e; cbn [f_run]; try (destruct (f_process F st _) as [[st' pushed] [fe|]]; rewrite IH; reflexivity).
  replace (1 <=? shut + 1) with true by (symmetry; apply Nat.leb_le; lia). reflexivity.
Qed.
Lemma only_from {Q : QLib} u d : forall tr, (forall w e, In (LCopy w d e true) tr -> w = u \/ is_pulse e) -> filter is_data (arrived d tr) = filter is_data (arrived_from u d tr).
Proof.
  induction tr as [|l tr IH]; intros H; [reflexivity|]. unfold arrived, arrived_from in *. cbn [flat_map]. rewrite !filter_app, IH by (intros w e Hin; apply (H w e); right; exact Hin).
  f_equal. destruct l as [| | |w x e [|]| |]; try reflexivity. destruct (seqb d x) eqn:E; [|rewrite andb_false_r; reflexivity]. apply seqb_eq in E. subst x.
  destruct (H w e (or_introl eq_refl)) as [->|[i ->]]; [rewrite weqb_refl; reflexivity|]. destruct (weqb u w); reflexivity.
Qed.
(** So a stopped sink has delivered all the data that was put on its queue; and if no
    queue was full, that is all that its upstream had to send. *)
Theorem C86_delivered_partial : forall (Q : QLib) (S : Type) proc (st0 : string -> S) fint g t tr s, distinct_ids g -> wire g = Going t -> nrun proc st0 fint t tr s ->
  quiet proc st0 -> single_upstreams g -> forall u d, upstream g u d -> In d (g_sinks g) -> sr_stopped (n_sink s d) = true ->
  delivered (sr_calls (n_sink s d)) = filter is_data (arrived d tr) /\
  (no_drops tr ->
    (In u (map fst (g_natives g ++ g_sources g)) -> forall k, arrived_from (Src u k) d tr = emitted u k tr) /\
    (In u (map fst (g_filters g)) -> delivered (sr_calls (n_sink s d)) = filter is_data (fr_sent (f_run (mkFilt S (proc u)) 1 (map Some (polled u tr)) (st0 u) [] 0)))).
Proof.
  intros Q S proc st0 fint g t tr s Hd Hw R Hq Hs u d Hu Hk St.
  destruct (orderly _ _ _ _ _ Hd Hw _ _ _ _ R Hq Hs Hu (or_intror (conj Hk St))) as (Ho & Hp & Hn).
  assert (I := inv_run _ _ _ _ _ _ (wired_wf g t Hd Hw) R).
  destruct (sink_found g t Hd Hw d Hk) as (sources & El).
  destruct (sink_marker_seen _ _ _ _ _ Hd Hw _ _ _ _ R El) as (dn & E1 & E2 & E3). rewrite St in E1.
  assert (D : delivered (sr_calls (n_sink s d)) = filter is_data (arrived d tr)).
  { rewrite (i_queue _ _ _ _ _ _ I), E1, E3, !filter_app, (pulse_data _ Hp). cbn. rewrite !app_nil_r. reflexivity. }
  split; [exact D|]. intros Nd.
  assert (L : forall w, thread_of u w -> mem d (sends_of t w) = true -> arrived_from w d tr = said proc st0 t tr w).
  { intros w Hw' M. rewrite (arrived_attempts_all _ _ _ Nd). assert (L := i_link _ _ _ _ _ _ I w d). rewrite M, (Hn w Hw'), app_nil_r in L. exact L. }
  split.
  - intros Hi k. apply (L (Src u k)); [reflexivity|]. apply (upstream_sends g t Hd Hw _ u); [reflexivity|exact Hu|].
    intros Hf. apply in_map_iff in Hf as ([u' fw] & E & Hf). cbn in E. subst u'.
    destruct (sender_kind g Hd u fw) as [[_ N]|[_ N]]; [unfold senders_of; apply in_or_app; auto|contradiction|]. apply N. exact (in_map fst _ _ Hf).
  - intros Hf. assert (M : mem d (sends_of t (Fil u)) = true) by (apply (upstream_sends g t Hd Hw _ u); [reflexivity|exact Hu|exact Hf]).
    assert (F : filter is_data (arrived d tr) = filter is_data (arrived_from (Fil u) d tr)).
    { apply only_from. intros w e Hin.
      assert (Ha : In e (attempts w d tr)) by (unfold attempts; apply in_flat_map; eexists; split; [exact Hin|]; cbn beta iota; rewrite weqb_refl, seqb_refl'; left; reflexivity).
      assert (Ln := i_link _ _ _ _ _ _ I w d). destruct (mem d (sends_of t w)) eqn:Em; [|apply app_eq_nil in Ln as [Ln _]; rewrite Ln in Ha; destruct Ha].
      assert (Hs' : In e (said proc st0 t tr w)) by (rewrite <- Ln; apply in_or_app; auto).
      destruct (sends_upstream g t Hd Hw w d Em) as [->|(u' & T & U)]; [right; exact (tim_said _ _ _ _ _ Hs')|].
      left. assert (u' = u) by (exact (Hs _ _ _ U Hu)). subst u'. destruct w as [i k|i|]; cbn in T; [subst i|subst i; reflexivity|destruct T].
      exfalso. apply (source_known g t Hd Hw) in Em. apply in_map_iff in Em as ([u' fw] & E & Em). cbn in E. subst u'.
      destruct (sender_kind g Hd u fw) as [[_ N]|[_ N]]; [unfold senders_of; apply in_or_app; auto| |contradiction]. apply N. exact (in_map fst _ _ Em). }
    rewrite D, F, (L (Fil u) eq_refl M). cbn [said].
    destruct (filter_found g t Hd Hw u Hf) as (srcs & sends & Ef). rewrite Ef. destruct (filter_lookup g t Hd Hw _ _ _ Ef) as (fw & _ & _ & Hl).
    assert (Hle := single_length proc st0 fint g srcs u _ Hs Hl (fun v Hv => proj1 Hv)).
    unfold filter_of. destruct srcs as [|a [|b r]]; cbn [List.length] in *; [rewrite f_run_01; reflexivity|reflexivity|lia].
Qed.

(** ** Examples: a source, a filter and a sink in a row; one event, one pulse, and
    the shutdown.  The sink ends with the pulse of the timer still to come. *)
Definition xrow : config := mkConfig ["sinks.null"] [("filters.f", ["sinks.null"])] [] [("sources.a", ["filters.f"])].
Definition xrow_started : started := mkStarted [("sinks.null", ["filters.f"])] [("filters.f", (["sources.a"], ["sinks.null"]))] [("sources.a", ["filters.f"])] ["filters.f"].
Lemma xrow_ids : distinct_ids xrow.
Proof. unfold distinct_ids; cbn; repeat (constructor; [cbn; intuition discriminate|]); constructor. Qed.
Lemma xrow_wired : wire xrow = Going xrow_started.
Proof. reflexivity. Qed.
Lemma xrow_single : single_upstreams xrow.
Proof.
  intros u u' v (fw & H & Hi) (fw' & H' & Hi'). cbn in H, H'.
  destruct H as [[= <- <-]|[[= <- <-]|[]]]; destruct H' as [[= <- <-]|[[= <- <-]|[]]]; try reflexivity;
    destruct Hi as [<-|[]]; destruct Hi' as [Hi'|[]]; discriminate Hi'.
Qed.
Lemma xrow_upstream u v : upstream xrow u v <-> (u = "filters.f" /\ v = "sinks.null") \/ (u = "sources.a" /\ v = "filters.f").
Proof.
  split.
  - intros (fw & H & Hi). cbn in H. destruct H as [[= <- <-]|[[= <- <-]|[]]]; destruct Hi as [<-|[]]; auto.
  - intros [[-> ->]|[-> ->]]; [exists ["sinks.null"]|exists ["filters.f"]]; cbn; auto.
Qed.
Lemma xrow_fed : Forall (fed xrow) ["sources.a"; "filters.f"; "sinks.null"].
Proof.
  assert (A : fed xrow "sources.a") by (apply fed_source; left; reflexivity).
  assert (B : fed xrow "filters.f").
  { apply (fed_filter _ _ ["sinks.null"] "sources.a"); [left; reflexivity|apply xrow_upstream; auto|exact A|].
    intros u Hu _. apply xrow_upstream in Hu as [[-> E]|[-> _]]; [discriminate E|exact A]. }
  constructor; [exact A|]. constructor; [exact B|]. constructor; [|constructor]. apply (fed_sink _ _ "filters.f"); [left; reflexivity|apply xrow_upstream; auto|exact B].
Qed.
Definition xrow_trace : list (@label xQ) :=
  [LEmit "sources.a" 1 (xdata "kept"); LPulse; LCopy Tim "filters.f" (ETimerFlush 1) true; LCopy (Src "sources.a" 1) "filters.f" (xdata "kept") true;
   LStop "sources.a"; LPoll "filters.f" (ETimerFlush 1); LCopy (Src "sources.a" 0) "filters.f" EShutdown true;
   LCopy (Fil "filters.f") "sinks.null" (ETimerFlush 1) true; LPoll "filters.f" (xdata "kept"); LCopy (Fil "filters.f") "sinks.null" (xdata "kept") true;
   LPoll "filters.f" EShutdown; LPoll "sinks.null" (ETimerFlush 1); LValve "sinks.null" true; LCopy (Fil "filters.f") "sinks.null" EShutdown true;
   LPoll "sinks.null" (xdata "kept"); LValve "sinks.null" false; LValve "sinks.null" true; LPoll "sinks.null" EShutdown; LValve "sinks.null" true].
Example C86_ex : exists s, nrun xpass_proc (fun _ => tt) (fun _ => Some 1%N) xrow_started xrow_trace s /\ no_drops xrow_trace /\
  Forall (over xrow s) ["sources.a"; "filters.f"; "sinks.null"] /\ sr_calls (n_sink s "sinks.null") = [CFlushTimer 1; CFlushValve; CDeliver (xdata "kept"); CShutdown].
Proof.
  assert (R := run_start xpass_proc (fun _ => tt) (fun _ => Some 1%N) xrow_started).
  let ls := eval unfold xrow_trace in xrow_trace in net_all ls.
  cbn [app] in R. fold xrow_trace in R.
  match type of R with nrun _ _ _ _ _ ?s => exists s end. split; [exact R|]. clear R.
  split; [intros u d e H; repeat (destruct H as [H|H]; [discriminate H|]); exact H|].
  split; [|reflexivity].
  repeat (constructor; [split; [|split]; first [intros _; reflexivity | cbn [In map fst app g_natives g_sources g_filters g_sinks xrow]; intuition discriminate]|]); constructor.
Qed.
(** the event in hand, the sink's queue and the pending copy of a state on the way *)
Example C84_ex : exists s, nrun xpass_proc (fun _ => tt) (fun _ => Some 1%N) xrow_started (firstn 15 xrow_trace) s /\
  n_queue s "sinks.null" = [EShutdown] /\ in_hand (n_sink s "sinks.null") = [xdata "kept"] /\
  polled "sinks.null" (firstn 15 xrow_trace) = [ETimerFlush 1; xdata "kept"] /\ arrived "sinks.null" (firstn 15 xrow_trace) = [ETimerFlush 1; xdata "kept"; EShutdown].
Proof.
  assert (R := run_start xpass_proc (fun _ => tt) (fun _ => Some 1%N) xrow_started).
  let ls := eval cbv [xrow_trace firstn] in (firstn 15 xrow_trace) in net_all ls.
  match type of R with nrun _ _ _ _ _ ?s => exists s end. split; [exact R|]. repeat split; reflexivity.
Qed.
(** the state at the end is at rest *)
Example C85_ex : exists s, nrun xpass_proc (fun _ => tt) (fun _ => Some 1%N) xrow_started xrow_trace s /\ no_marker_dropped xrow_trace /\ at_rest xpass_proc (fun _ => Some 1%N) xrow_started s /\ Forall (fed xrow) ["sources.a"; "filters.f"; "sinks.null"].
Proof.
  assert (R := run_start xpass_proc (fun _ => tt) (fun _ => Some 1%N) xrow_started).
  let ls := eval unfold xrow_trace in xrow_trace in net_all ls.
  cbn [app] in R. fold xrow_trace in R.
  match type of R with nrun _ _ _ _ _ ?s => exists s; set (st := s) in * end. split; [exact R|].
  split; [intros u d H; repeat (destruct H as [H|H]; [discriminate H|]); exact H|]. split; [|exact xrow_fed].
  assert (O : forall u, n_out st u = []).
  { intros u. unfold st. clear. cbn [n_out set_out set_queue set_filter set_sink set_done set_idx net0]. unfold upd. cbn [copies t_timer xrow_started map app]. repeat match goal with |- context [weqb ?a u] => destruct (weqb a u) eqn:?; try reflexivity end. }
  assert (D : n_done st "sources.a" = true) by reflexivity. assert (F : fn_stopped (n_filter st "filters.f") = true) by reflexivity. assert (K : sr_stopped (n_sink st "sinks.null") = true) by reflexivity.
  clearbody st. intros l s' St.
  destruct St as [i sends k e H1 H2 H3 H4|i sends H1 H2 H3|H1|u x e r ok H1|x sources sends e q H1 H2 H3 H4|x sources e q H1 H2 H3 H4|x sources o e H1 H2 H3]; try reflexivity; exfalso.
  1,2: cbn in H1; destruct (seqb i "sources.a") eqn:E; [apply seqb_eq in E; subst i|discriminate H1]; congruence.
  1: rewrite O in H1; discriminate H1.
  1: cbn in H1; destruct (seqb x "filters.f") eqn:E; [apply seqb_eq in E; subst x|discriminate H1]; congruence.
  all: cbn in H1; destruct (seqb x "sinks.null") eqn:E; [apply seqb_eq in E; subst x|discriminate H1]; congruence.
Qed.

Print Assumptions C84_queues.
Print Assumptions C84_sources.
Print Assumptions C84_filters.
Print Assumptions C84_timer.
Print Assumptions C84_sinks.
Print Assumptions C84_no_drops.
Print Assumptions C85_refuted.
Print Assumptions C85_never.
Print Assumptions C85_at_rest_partial.
Print Assumptions C85_can_end_partial.
Print Assumptions C85_over_for_good.
Print Assumptions C86_refuted.
Print Assumptions C86_orderly_partial.
Print Assumptions C86_quiet_filters.
Print Assumptions C86_delivered_partial.
