(** * Scrapes of the prometheus sink *)
From Verif Require Import Base BaseFacts TelemetryModel TelemetryProofs FiltersModel FiltersProofs WavefrontModel BucketsSpec PrometheusModel PrometheusSpec PrometheusProofs QExample TelemetryProps PrometheusProps ScrapeModel ScrapeSpec ScrapeProofs.
From Coq Require Import Lia.
Open Scope string_scope. Open Scope list_scope. Open Scope nat_scope.

(** ** C121: a scrape sees the aggregation as it was at one moment *)
(** The body is the text of the aggregation after the updates [ops_of (l1 ++ l2)]: all
    those made before the request was taken up, and those made up to some moment before
    the answer. *)
Theorem C121_snapshot : forall (Q : QLib) show_f show_n (cap : N) (default : tagmap) (age : option N) gzip shuffle (ms : list smove) (s : scrape)
    (l : list happening) (r : nat) (h : list (string * string)) (body : string) (sent : bool) (l' : list happening),
  sc_run show_f show_n default age gzip shuffle ms (sc_start cap) = Some s ->
  sc_log s = l ++ EvAnswer r (A200 h body sent) :: l' ->
  exists l1 l2 l3 a bs ts text,
    l = l1 ++ EvTaken r :: l2 ++ l3 /\ no_taken l2 /\ no_taken l3 /\
    pa_run (ops_of (l1 ++ l2)) (pa_new cap) = Some (a, bs) /\ pa_reportable a = Some ts /\
    write_text show_f show_n default (shuffle r ts) = Some text /\
    body = match gzip with Some z => z text | None => text end /\ body <> "" /\
    h = ("Content-Type", "text/plain; version=0.0.4") :: match gzip with Some _ => [("Content-Encoding", "gzip")] | None => [] end.
Proof.
  intros Q show_f show_n cap default age gzip shuffle ms s l r h body sent l' E El.
  destruct (i_answers _ _ _ _ _ _ _ _ _ (inv_run _ _ _ _ _ _ _ _ _ E) _ _ _ _ _ _ El) as ((l1 & l2 & l3 & a & bs & ts & text & H1 & H2 & H3 & H4 & H5 & H6 & H7) & -> & Hb).
  exists l1, l2, l3, a, bs, ts, text. repeat (split; [assumption|]). reflexivity.
Qed.
(** Scrapes take nothing from the aggregation: it is what the updates made of it, and the
    updates are those the sink was told, in that order; at most the last is still to come. *)
Theorem C121_points_kept : forall (Q : QLib) show_f show_n (cap : N) (default : tagmap) (age : option N) gzip shuffle (ms : list smove) (s : scrape),
  sc_run show_f show_n default age gzip shuffle ms (sc_start cap) = Some s ->
  (exists bs, pa_run (ops_of (sc_log s)) (pa_new cap) = Some (sc_agg s, bs)) /\
  exists p, map pop_of (filter (in_age age) (told ms)) = ops_of (sc_log s) ++ p /\ List.length p <= 1 /\
            (sc_sink s = SIdle \/ sc_sink s = SEnd -> p = []).
Proof.
  intros Q show_f show_n cap default age gzip shuffle ms s E. destruct (inv_run _ _ _ _ _ _ _ _ _ E) as [Ia _ (p & Hp & Ht) _ _ _ _ _]. split; [exact Ia|].
  exists p. split; [exact Hp|]. destruct (sc_sink s); subst; cbn; split; auto; intros [H|H]; discriminate.
Qed.
(** Of the points it is told, those within the threshold get into the aggregation, exactly at it included, and no others. *)
Theorem C121_age : forall (Q : QLib) show_f show_n (cap : N) (default : tagmap) (age : option N) gzip shuffle (ms : list smove) (s : scrape),
  sc_run show_f show_n default age gzip shuffle ms (sc_start cap) = Some s -> Forall (tellable age) (told ms) ->
  exists p, map pop_of (filter (young age) (told ms)) = ops_of (sc_log s) ++ p /\ List.length p <= 1 /\ (sc_sink s = SIdle \/ sc_sink s = SEnd -> p = []).
Proof.
  intros Q show_f show_n cap default age gzip shuffle ms s E T. destruct (C121_points_kept Q show_f show_n cap default age gzip shuffle ms s E) as [_ (p & Hp & Hr)]. exists p. split; [|exact Hr]. rewrite <- Hp. f_equal.
  apply filter_ext_in. intros o Ho. rewrite Forall_forall in T. specialize (T o Ho). destruct o as [now t|now|now]; try reflexivity. cbn in T |- *. destruct age as [n|]; [|reflexivity]. destruct T as [T1 T2].
  unfold abs64, as_i64. rewrite (wrap64_id (t_timestamp t - now)) by lia. rewrite (wrap64_id (Z.abs _)) by lia. rewrite (wrap64_id (Z.of_N n)) by lia. reflexivity.
Qed.
(** at a threshold of 3 the point of time 8 is taken at 5, that of time 9 is not *)
Example C121_age_ex : Forall (tellable (Some 3%N)) [SDeliver 5 (pt "a" (VSum fone) false None 8); SDeliver 5 (pt "a" (VSum fone) false None 9)] /\ filter (young (Some 3%N)) [SDeliver 5 (pt "a" (VSum fone) false None 8); SDeliver 5 (pt "a" (VSum fone) false None 9)] = [SDeliver 5 (pt "a" (VSum fone) false None 8)].
Proof. split; [repeat constructor|reflexivity]. Qed.
(** The sink waits for the lock only while a text is being written. *)
Theorem C121_sink_waits : forall (Q : QLib) show_f show_n (cap : N) (default : tagmap) (age : option N) gzip shuffle (ms : list smove) (s : scrape) (o : sop),
  sc_run show_f show_n default age gzip shuffle ms (sc_start cap) = Some s -> sc_sink s = SWants o ->
  sc_step show_f show_n default age gzip shuffle s MLock = None -> exists r, sc_server s = VWrites r.
Proof.
  intros Q show_f show_n cap default age gzip shuffle ms s o E Es H. pose proof (i_lock _ _ _ _ _ _ _ _ _ (inv_run _ _ _ _ _ _ _ _ _ E)) as HL. cbn in H. rewrite Es in H, HL.
  destruct (sc_lock s); [discriminate| |tauto]. destruct HL as [[o' H'] _]. discriminate.
Qed.
(** The report counters count the responses. *)
Theorem C121_counters : forall (Q : QLib) show_f show_n (cap : N) (default : tagmap) (age : option N) gzip shuffle (ms : list smove) (s : scrape),
  sc_run show_f show_n default age gzip shuffle ms (sc_start cap) = Some s ->
  sc_success s = N.of_nat (responses true (sc_log s)) /\ sc_error s = N.of_nat (responses false (sc_log s)).
Proof. intros Q show_f show_n cap default age gzip shuffle ms s E. exact (i_counts _ _ _ _ _ _ _ _ _ (inv_run _ _ _ _ _ _ _ _ _ E)). Qed.

Notation xrun gzip := (@sc_run xQ (fun _ => "1") (fun _ => "n") [] None gzip (fun _ l => l)).
Definition xtold (o : @sop xQ) : list smove := [MTold o; MLock; MApply].
Definition xasked (r : nat) : list (@smove xQ) := [MArrives r; MPoll false; MRecv false].
Definition xgot : list (@smove xQ) := [MTry; MWrite; MRespond true].
Definition xbody : string := ("# TYPE a counter" ++ nl ++ "a 1" ++ nl)%string.
(** the second point comes between the writing and the response *)
Example C121_ex :
  option_map (fun s => (sc_log s, sc_sink s, sc_success s))
    (xrun None (xtold (SDeliver 5 (xsum1 "a")) ++ xasked 7 ++ [MTry; MTold (SDeliver 5 (xsum1 "b")); MWrite; MLock; MApply; MRespond true]) (sc_start 10)) =
  Some ([EvApplied (PInsert (xsum1 "a")); EvTaken 7; EvApplied (PInsert (xsum1 "b"));
         EvAnswer 7 (A200 [("Content-Type", "text/plain; version=0.0.4")] xbody true)], SIdle, 1%N).
Proof. reflexivity. Qed.
(** here the sink would take the lock while the text is written *)
Example C121_waits_ex :
  xrun None (xtold (SDeliver 5 (xsum1 "a")) ++ xasked 7 ++ [MTry; MTold (SDeliver 5 (xsum1 "b")); MLock]) (sc_start 10) = None.
Proof. reflexivity. Qed.

(** ** C122: every scrape is answered *)
(** The requests are taken up in the order they came, one at a time, each once. *)
Theorem C122_in_order : forall (Q : QLib) show_f show_n (cap : N) (default : tagmap) (age : option N) gzip shuffle (ms : list smove) (s : scrape),
  sc_run show_f show_n default age gzip shuffle ms (sc_start cap) = Some s ->
  arrivals ms = taken (sc_log s) ++ sc_queue s /\
  exists p, taken (sc_log s) = closed (sc_log s) ++ p /\ List.length p <= 1 /\ (sc_server s = VPoll \/ sc_server s = VRecv -> p = []).
Proof.
  intros Q show_f show_n cap default age gzip shuffle ms s E. destruct (inv_run _ _ _ _ _ _ _ _ _ E) as [_ _ _ Iq Ib _ _ _]. split; [exact Iq|].
  exists (busy (sc_server s)). split; [exact Ib|]. destruct (sc_server s); cbn; split; auto; intros [H|H]; discriminate.
Qed.
(** The server's thread always has a next move: it never waits for the sink. *)
Theorem C122_never_blocks : forall (Q : QLib) show_f show_n (cap : N) (default : tagmap) (age : option N) gzip shuffle (ms : list smove) (s : scrape),
  sc_run show_f show_n default age gzip shuffle ms (sc_start cap) = Some s ->
  server_over s \/ exists m s', of_server m = true /\ server_fails m = false /\ sc_step show_f show_n default age gzip shuffle s m = Some s'.
Proof.
  intros Q show_f show_n cap default age gzip shuffle ms s _. unfold server_over. destruct (sc_server s) eqn:Ev; auto; right.
  - exists (MPoll false). cbn. rewrite Ev. eauto.
  - exists (MRecv false). cbn. rewrite Ev. destruct (sc_queue s); eauto.
  - exists MTry. cbn. rewrite Ev. eauto.
  - exists MWrite. cbn. rewrite Ev. eauto.
  - exists (MRespond true). cbn. rewrite Ev. eauto.
Qed.
(** A scrape goes unanswered only if at its try_lock the sink was in the middle of an
    update, or if there is nothing to report and gzip is off.  Missing: those two
    cases (C122_refuted); sketches with samples answer queries, the window has room and
    poll and recv_timeout do not fail. *)
Theorem C122_answered_partial : forall (Q : QLib) show_f show_n (cap : N) (default : tagmap) (age : option N) gzip shuffle (ms : list smove) (s : scrape) (r : nat) (a : answer),
  (forall c q, (0 < c_count c)%N -> c_query c q <> None) -> (forall n l, Permutation l (shuffle n l)) -> (1 <= cap)%N ->
  (forall m, In m ms -> server_fails m = false) -> (forall now t, In (SDeliver now t) (told ms) -> sampled t) ->
  (forall z, gzip = Some z -> forall x, z x <> "") ->
  sc_run show_f show_n default age gzip shuffle ms (sc_start cap) = Some s -> In (EvAnswer r a) (sc_log s) ->
  (exists h body sent, a = A200 h body sent) \/
  (a = ADropped /\ exists ms1 m1 ms2 s1, ms = ms1 ++ m1 :: ms2 /\ sc_run show_f show_n default age gzip shuffle ms1 (sc_start cap) = Some s1 /\
     ((m1 = MTry /\ sc_server s1 = VTaken r /\ exists o, sc_sink s1 = SHolds o) \/
      (m1 = MWrite /\ sc_server s1 = VWrites r /\ gzip = None /\ pa_reportable (sc_agg s1) = Some []))).
Proof.
  intros Q show_f show_n cap default age gzip shuffle ms s r a HL HP Hc Hf Ho Hz E Hin.
  destruct (answer_has_why _ _ _ _ _ _ _ _ _ _ _ E Hin) as [H|[->|[-> (ms1 & m1 & ms2 & s1 & Em & E1 & H)]]]; [auto|exfalso; eapply calm_no_panic; eassumption|].
  right. split; [reflexivity|]. exists ms1, m1, ms2, s1. split; [exact Em|]. split; [exact E1|]. destruct H as [(H1 & H2 & _ & [H3|H3])|(H1 & H2 & text & H3 & H4)].
  - left. auto.
  - exfalso. assert (C : calm s1).
    { eapply calm_run; [exact HL|exact HP|exact Hc| | |exact E1].
      - intros m H. apply Hf. rewrite Em. apply in_or_app. left. exact H.
      - intros now t H. eapply Ho. rewrite Em, told_app. apply in_or_app. left. exact H. }
    destruct C as [_ C _ _ _]. congruence.
  - right. split; [exact H1|]. split; [exact H2|]. destruct gzip as [z|] eqn:Ez; [exfalso; eapply Hz; [reflexivity|symmetry; exact H4]|]. split; [reflexivity|].
    cbn in H4. subst text. unfold expose in H3. destruct (pa_reportable (sc_agg s1)) as [ts|]; [|discriminate]. apply write_text_empty in H3. f_equal.
    apply Permutation_nil. rewrite <- H3. apply Permutation_sym, HP.
Qed.
Theorem C122_refuted : exists (ms1 ms2 : list smove) (s1 s2 : scrape),
  xrun None ms1 (sc_start 10) = Some s1 /\ sc_log s1 = [EvTaken 7; EvAnswer 7 ADropped; EvApplied (PInsert (xsum1 "a"))] /\
  xrun None ms2 (sc_start 10) = Some s2 /\ sc_log s2 = [EvTaken 7; EvAnswer 7 ADropped].
Proof.
  exists ([MTold (SDeliver 5 (xsum1 "a")); MLock] ++ xasked 7 ++ [MTry; MRespond true; MApply]), (xasked 7 ++ xgot).
  exists (@mkScrape xQ (mkAggr [("a", APerp (xsum1 "a"))] 10) LFree false SIdle VPoll [] false [EvTaken 7; EvAnswer 7 ADropped; EvApplied (PInsert (xsum1 "a"))] 0 0).
  exists (@mkScrape xQ (pa_new 10) LFree false SIdle VPoll [] false [EvTaken 7; EvAnswer 7 ADropped] 0 0).
  split; [reflexivity|split; [reflexivity|split; reflexivity]].
Qed.
(** two requests, the second with gzip on and nothing to report *)
Example C122_ex :
  option_map (fun s => (sc_log s, sc_queue s))
    (xrun (Some (fun x => "gz" ++ x)%string) (xasked 7 ++ [MArrives 8; MArrives 9] ++ xgot ++ [MPoll false; MRecv false]) (sc_start 10)) =
  Some ([EvTaken 7; EvAnswer 7 (A200 [("Content-Type", "text/plain; version=0.0.4"); ("Content-Encoding", "gzip")] "gz" true); EvTaken 8], [9]).
Proof. reflexivity. Qed.

(** ** C123: the server stops when told *)
(** From the signal on the server makes at most five more moves, after which it is over,
    and takes up at most one more request. *)
Theorem C123_stops : forall (Q : QLib) show_f show_n (cap : N) (default : tagmap) (age : option N) gzip shuffle (ms ms' : list smove) (s s' : scrape),
  sc_run show_f show_n default age gzip shuffle ms (sc_start cap) = Some s -> sc_signal s = true ->
  sc_run show_f show_n default age gzip shuffle ms' s = Some s' ->
  List.length (filter of_server ms') <= 5 /\
  (List.length (filter of_server ms') = 5 -> server_over s') /\
  exists more, taken (sc_log s') = taken (sc_log s) ++ more /\ List.length more <= 1.
Proof.
  intros Q show_f show_n cap default age gzip shuffle ms ms' s s' _ Hs E. destruct (signalled_run show_f show_n cap default age gzip shuffle _ _ _ Hs E) as (_ & H2 & x & H3 & H4).
  assert (R : rank (sc_server s) <= 5) by (destruct (sc_server s); cbn; lia). assert (R' : in_recv (sc_server s) <= 1) by (destruct (sc_server s); cbn; lia).
  split; [lia|]. split; [|exists x; split; [exact H3|lia]]. intros H. unfold server_over. destruct (sc_server s'); cbn in *; auto; lia.
Qed.
(** The signal is given by the sink's shutdown, once its last purge is made, and shutdown
    returns only when the server is over. *)
Theorem C123_joined : forall (Q : QLib) show_f show_n (cap : N) (default : tagmap) (age : option N) gzip shuffle (ms : list smove) (s : scrape),
  sc_run show_f show_n default age gzip shuffle ms (sc_start cap) = Some s ->
  (sc_signal s = true -> exists l now, ops_of (sc_log s) = l ++ [PPurge now] /\ In (SShutdown now) (told ms)) /\ (sc_sink s = SEnd -> sc_signal s = true /\ sc_server s = VEnd).
Proof.
  intros Q show_f show_n cap default age gzip shuffle ms s E.
  assert (X : (forall now, sc_sink s = SWants (SShutdown now) \/ sc_sink s = SHolds (SShutdown now) -> In (SShutdown now) (told ms)) /\
     (sc_signal s = true -> (sc_sink s = SJoin \/ sc_sink s = SEnd \/ sc_sink s = SPanic) /\ exists l now, ops_of (sc_log s) = l ++ [PPurge now] /\ In (SShutdown now) (told ms)) /\
     (sc_sink s = SJoin -> sc_signal s = true) /\ (sc_sink s = SEnd -> sc_signal s = true /\ sc_server s = VEnd)).
  2: { destruct X as (_ & X2 & _ & X4). split; [apply X2|exact X4]. }
  revert s E. induction ms as [|m ms IH] using rev_ind; intros s E.
  { injection E as <-. cbn. split; [intros now [H|H]; discriminate|]. split; [discriminate|]. split; discriminate. }
  rewrite run_snoc in E. destruct (sc_run show_f show_n default age gzip shuffle ms (sc_start cap)) as [s0|]; [|discriminate]. destruct (IH _ eq_refl) as (I1 & I2 & I3 & I4). clear IH.
  assert (T : forall o, In o (told ms) -> In o (told (ms ++ [m]))) by (intros o H; rewrite told_app; apply in_or_app; left; exact H).
  assert (I1' : forall now, sc_sink s0 = SWants (SShutdown now) \/ sc_sink s0 = SHolds (SShutdown now) -> In (SShutdown now) (told (ms ++ [m]))) by auto.
  assert (I2' : sc_signal s0 = true -> (sc_sink s0 = SJoin \/ sc_sink s0 = SEnd \/ sc_sink s0 = SPanic) /\ exists l now, ops_of (sc_log s0) = l ++ [PPurge now] /\ In (SShutdown now) (told (ms ++ [m]))).
  { intros H. destruct (I2 H) as (H1 & l & now & H2 & H3). eauto 8. }
  destruct m as [o| | | |r|fails|fails| | |sent]; cbn [sc_step] in E.
  - destruct (sc_sink s0) eqn:Es; try discriminate. destruct (in_age age o) eqn:Eo; injection E as <-; cbn [with_sink sc_sink sc_signal sc_server sc_log].
    + split; [intros now [H|H]; [|discriminate]; injection H as ->; rewrite told_app; apply in_or_app; right; left; reflexivity|]. split; [intros H; destruct (I2' H) as [[?|[?|?]] _]; discriminate|]. split; discriminate.
    + rewrite Es. auto.
  - destruct (sc_sink s0) as [|o|o| | |] eqn:Es; try discriminate. destruct (sc_lock s0); try discriminate. destruct (sc_poisoned s0); injection E as <-; cbn [with_sink with_lock sc_sink sc_signal sc_server sc_log].
    + split; [intros now [H|H]; discriminate|]. split; [intros H; destruct (I2' H) as [[?|[?|?]] _]; discriminate|]. split; discriminate.
    + split; [intros now [H|H]; [discriminate|]; injection H as ->; apply I1'; left; reflexivity|]. split; [intros H; destruct (I2' H) as [[?|[?|?]] _]; discriminate|]. split; discriminate.
  - destruct (sc_sink s0) as [|o|o| | |] eqn:Es; try discriminate. destruct (pop_apply _ _); injection E as <-; cbn [with_sink poison sc_sink sc_signal sc_server sc_log].
    + split; [intros now [H|H]; destruct o; discriminate|]. split; [|split; [destruct o; try discriminate; reflexivity|destruct o; discriminate]].
      intros H. destruct o as [now t|now|now]; [destruct (I2' H) as [[?|[?|?]] _]; discriminate|destruct (I2' H) as [[?|[?|?]] _]; discriminate|].
      split; [left; reflexivity|]. exists (ops_of (sc_log s0)), now. rewrite ops_app. split; [reflexivity|]. apply I1'. right. reflexivity.
    + split; [intros now [H|H]; discriminate|]. split; [intros H; destruct (I2' H) as [[?|[?|?]] _]; discriminate|]. split; discriminate.
  - destruct (sc_sink s0) eqn:Es; try discriminate. destruct (sc_server s0) eqn:Ev; try discriminate; injection E as <-; cbn [with_sink sc_sink sc_signal sc_server sc_log];
      (split; [intros now [H|H]; discriminate|]); (split; [intros H; destruct (I2' H) as [_ X]; auto|]); (split; [discriminate|]); [auto|discriminate].
  - injection E as <-. cbn [sc_sink sc_signal sc_server sc_log]. auto.
  - destruct (sc_server s0) eqn:Ev; try discriminate. injection E as <-. cbn [with_server sc_sink sc_signal sc_server sc_log]. split; [auto|]. split; [auto|]. split; [auto|]. intros H. destruct (I4 H); discriminate.
  - destruct (sc_server s0) eqn:Ev; try discriminate. destruct fails; [|destruct (sc_queue s0)]; injection E as <-; cbn [with_server sc_sink sc_signal sc_server sc_log]; rewrite ?ops_app; cbn; rewrite ?app_nil_r; (split; [auto|]); (split; [auto|]); (split; [auto|]); intros H; destruct (I4 H); discriminate.
  - destruct (sc_server s0) eqn:Ev; try discriminate. injection E as <-. destruct (sc_lock s0); [destruct (sc_poisoned s0)| |]; cbn [with_server with_lock sc_sink sc_signal sc_server sc_log]; (split; [auto|]); (split; [auto|]); (split; [auto|]); intros H; destruct (I4 H); discriminate.
  - destruct (sc_server s0) eqn:Ev; try discriminate. injection E as <-. destruct (expose _ _ _ _ _ _); cbn [with_server with_lock with_event poison sc_sink sc_signal sc_server sc_log]; rewrite ?ops_app; cbn [ops_of flat_map]; rewrite ?app_nil_r; (split; [auto|]); (split; [auto|]); (split; [auto|]); intros H; destruct (I4 H); discriminate.
  - destruct (sc_server s0) eqn:Ev; try discriminate. injection E as <-. destruct (seqb body ""); cbn [with_server with_event sc_sink sc_signal sc_server sc_log]; rewrite ?ops_app; cbn [ops_of flat_map]; rewrite ?app_nil_r; (split; [auto|]); (split; [auto|]); (split; [auto|]); intros H; destruct (I4 H); discriminate.
Qed.
(** the signal comes while the server is in recv_timeout: one more request is served *)
Example C123_ex :
  option_map (fun s => (sc_log s, sc_queue s, sc_sink s, sc_server s))
    (xrun None (xtold (SDeliver 5 (xsum1 "a")) ++ [MPoll false] ++ xtold (SShutdown 6) ++ [MArrives 7; MArrives 8; MRecv false] ++ xgot ++ [MPoll false; MJoin]) (sc_start 10)) =
  Some ([EvApplied (PInsert (xsum1 "a")); EvApplied (PPurge 6); EvTaken 7; EvAnswer 7 (A200 [("Content-Type", "text/plain; version=0.0.4")] xbody true)], [8], SEnd, VEnd).
Proof. reflexivity. Qed.

(** ** C124: a panic over one point or one scrape leaves the sink working *)
(** Missing: everything that can panic with the lock held.  Here: when no summary comes
    without samples, sketches with samples answer queries, and the window has room. *)
Theorem C124_no_panic_partial : forall (Q : QLib) show_f show_n (cap : N) (default : tagmap) (age : option N) gzip shuffle (ms : list smove) (s : scrape),
  (forall c q, (0 < c_count c)%N -> c_query c q <> None) -> (forall n l, Permutation l (shuffle n l)) -> (1 <= cap)%N ->
  (forall m, In m ms -> server_fails m = false) -> (forall now t, In (SDeliver now t) (told ms) -> sampled t) ->
  sc_run show_f show_n default age gzip shuffle ms (sc_start cap) = Some s ->
  sc_poisoned s = false /\ sc_sink s <> SPanic /\ sc_server s <> VPanic.
Proof. intros Q show_f show_n cap default age gzip shuffle ms s HL HP Hc Hf Ho E. destruct (calm_run _ _ _ _ _ _ _ _ HL HP Hc Hf Ho s E) as [_ H1 H2 H3 _]. auto. Qed.
(** Points are made with samples: what the builder makes of a value, or of a point that has
    samples, has samples, and so has the sum of points that have. *)
Theorem C124_points_are_sampled : forall (Q : QLib) (now : Z) (b : soft) (t u : telemetry),
  (harden now b = HOk t -> (forall v, s_thawed b = Some v -> match v with VQuant c _ => (0 < c_count c)%N | _ => True end) -> sampled t) /\
  (sampled t -> sampled u -> sampled (t_add t u)).
Proof.
  intros Q now b t u. split.
  - unfold harden, sampled. intros H Hv. destruct (s_initial b) as [iv|], (s_thawed b) as [tv|]; try discriminate; destruct (s_name b); try discriminate;
      destruct (match s_kind b with Some k => k | None => MSet end); try destruct (s_error b) as [e|]; try discriminate; try (destruct (s_bounds b); discriminate);
      try (destruct (s_bounds b); try discriminate; try (destruct (fleb fone e); try discriminate); injection H as <-; cbn [t_value]; first [apply Hv; reflexivity|rewrite c_insert_count; lia|exact Logic.I]).
    destruct (h_new _); [injection H as <-; exact Logic.I|discriminate].
  - unfold sampled, t_add. cbn [t_value]. destruct (t_value t) as [x|x|h|c x], (t_value u) as [y|y|k|d y]; cbn; auto; intros H1 H2; rewrite ?c_insert_count, ?c_merge_count; lia.
Qed.
(** After a panic with the lock held nothing is aggregated any more, no scrape taken up
    later is answered, and the next update that reaches the lock panics too. *)
Theorem C124_after_panic : forall (Q : QLib) show_f show_n (cap : N) (default : tagmap) (age : option N) gzip shuffle (ms ms' : list smove) (s s' : scrape),
  sc_run show_f show_n default age gzip shuffle ms (sc_start cap) = Some s -> sc_poisoned s = true ->
  sc_run show_f show_n default age gzip shuffle ms' s = Some s' ->
  ops_of (sc_log s') = ops_of (sc_log s) /\
  full_answers (sc_log s') <= full_answers (sc_log s) + (match sc_server s with VBuffer _ _ => 1 | _ => 0 end) /\
  (forall o s'', sc_sink s' = SWants o -> sc_step show_f show_n default age gzip shuffle s' MLock = Some s'' -> sc_sink s'' = SPanic).
Proof.
  intros Q show_f show_n cap default age gzip shuffle ms ms' s s' E Hp E'. destruct (poisoned_free _ _ _ _ _ _ _ _ _ E Hp) as [Ho Hr].
  destruct (poisoned_run show_f show_n cap default age gzip shuffle _ _ _ Hp Ho Hr E') as (H1 & H2 & H3). split; [exact H2|]. split.
  - unfold has_buffer in H3. destruct (sc_server s); try lia. destruct (seqb body ""); lia.
  - intros o s'' Hs H. cbn in H. rewrite Hs in H. destruct (sc_lock s'); try discriminate. rewrite H1 in H. injection H as <-. reflexivity.
Qed.
(** capacity_in_seconds: 0 and two summaries of one second *)
Theorem C124_refuted : exists (ms : list smove) (s : scrape),
  xrun None ms (sc_start 0) = Some s /\ (forall now t, In (SDeliver now t) (told ms) -> sampled t) /\
  sc_poisoned s = true /\ sc_sink s = SPanic /\ sc_server s = VPoll /\ sc_log s = [EvApplied (PInsert (xq [1]%Z 5)); EvTaken 7; EvAnswer 7 ADropped].
Proof.
  exists (xtold (SDeliver 5 (xq [1]%Z 5)) ++ xtold (SDeliver 5 (xq [2]%Z 5)) ++ xasked 7 ++ [MTry; MRespond true]).
  exists (@mkScrape xQ (mkAggr [("s", AWin 0 (fofZ 1) 1 [xq [1]%Z 5])] 0) LFree true SPanic VPoll [] false [EvApplied (PInsert (xq [1]%Z 5)); EvTaken 7; EvAnswer 7 ADropped] 0 0).
  split; [reflexivity|]. split; [|repeat (split; [reflexivity|]); reflexivity]. intros now t H. cbn in H. destruct H as [H|[H|[]]]; injection H as <- <-; reflexivity.
Qed.
(** the hypotheses of C122_answered_partial and C124_no_panic_partial *)
Example C124_ex : (forall (c : @ckms xQ) q, (0 < c_count c)%N -> c_query c q <> None).
Proof. intros c q H. cbn in *. destruct c; [discriminate|]. discriminate. Qed.

Print Assumptions C121_snapshot.
Print Assumptions C121_points_kept.
Print Assumptions C121_age.
Print Assumptions C121_sink_waits.
Print Assumptions C121_counters.
Print Assumptions C122_in_order.
Print Assumptions C122_never_blocks.
Print Assumptions C122_answered_partial.
Print Assumptions C122_refuted.
Print Assumptions C123_stops.
Print Assumptions C123_joined.
Print Assumptions C124_no_panic_partial.
Print Assumptions C124_points_are_sampled.
Print Assumptions C124_after_panic.
Print Assumptions C124_refuted.
