(** * C149: a point sent to a prometheus sink shows up in later scrapes. *)
From Verif Require Import Base BaseFacts TelemetryModel TelemetrySpec BucketsModel BucketsSpec FlowModel FlowSpec FlowProofs QExample TelemetryProps FlowProps PrometheusModel PrometheusSpec PrometheusProofs PrometheusProps
  ScrapeModel ScrapeSpec ScrapeProofs ScrapeProps ScrapedSpec ScrapedProofs ScrapedProps TopologyModel TopologySpec TopologyProofs TopologyProps NetworkModel NetworkSpec NetworkProofs NetworkProps
  LiveSpec LiveProofs LiveProps PulseSpec PulseProofs PulseProps ShownSpec ArriveSpec ArriveProofs CollectSpec CollectProofs.
From Coq Require Import Lia Permutation.
Open Scope string_scope. Open Scope list_scope. Open Scope nat_scope.

Theorem C149_exposed : forall (Q : QLib) cap show_f show_n default age gzip shuffle cs t, (forall n l, Permutation l (shuffle n l)) ->
  In (CDeliver (ETelemetry t)) cs -> t_kind t <> MSummarize -> prom_exposes cap show_f show_n default age gzip shuffle cs t.
Proof.
  intros Q cap show_f show_n default age gzip shuffle cs t Hp Hin Hk ms ms' r body D Hr (u & Fu & Ku) A.
  destruct (saw _ _ _ _ _ _ _ _ _ _ _ (proj1 Hr) A) as (ops & a & bs & ts & text & more & rest & Ra & Er & Et & Eb & Em & Ei).
  assert (Fi : find (fun x => seqb (t_name x) (t_name t)) (inserted ops) = Some u) by (rewrite Ei; apply find_prefix; exact Fu).
  pose proof (run_lane_ok cap (t_name t) _ _ _ Ra) as L.
  destruct (alookup seqb (t_name t) (pa_data a)) as [x|] eqn:El.
  2: { exfalso. unfold lane_ok in L. pose proof (find_named_none _ _ L) as N. unfold named in N. rewrite N in Fi. discriminate. }
  destruct x as [p|c s k samples].
  - destruct (C45_content _ _ _ _ _ _ _ Ra El) as (Hn & Hm & t0 & F0 & K0). rewrite Fi in F0. injection F0 as <-.
    exists (shuffle r ts), text, p, more, rest. split; [exact Et|]. split; [exact Eb|]. split; [|split; [exact Hn|split; [congruence|split; [exact Em|split; [eapply given_told; eassumption|]]]]].
    + eapply Permutation_in; [apply Hp|]. eapply (reported_in _ (APerp p)); [exact Er| |reflexivity]. apply in_map_iff. exists (t_name t, APerp p). split; [reflexivity|]. apply alookup_in'. exact El.
    + rewrite <- Ei. rewrite <- Ku, K0. exact Hm.
  - exfalso. destruct L as [(t0 & F0 & K0) _]. unfold named in F0. rewrite Fi in F0. injection F0 as <-. cbn in K0. congruence.
Qed.

(** What fits the text format is read from the answers by a scraper, beside what else is there. *)
Theorem C149_read_partial : forall (Q : QLib) cap show_f show_n default age shuffle cs t, (forall n l, Permutation l (shuffle n l)) ->
  (forall x, token (show_f x)) -> (forall n, token (show_n n)) -> NoDup (map fst default) -> Forall tag_fit default ->
  In (CDeliver (ETelemetry t)) cs -> t_kind t <> MSummarize ->
  forall ms ms' r body, does_all prom_does cs (ScrapeSpec.told ms) -> in_reach age ms ms' t -> kind_fits age ms t -> asked_after cap show_f show_n default age None shuffle ms ms' r body ->
  Forall point_fit (given age (ms ++ ms')) ->
  (forall u v, In u (given age (ms ++ ms')) -> In v (given age (ms ++ ms')) -> sanitize (t_name u) = sanitize (t_name v) -> t_name u = t_name v) ->
  exists p more rest block before after, given age ms' = more ++ rest /\ merged (of_metric (t_name t) (t_kind t) (given age ms ++ more)) = Some p /\ In t (given age ms) /\
    exposed show_f default p block /\ scrape_text body = Some (before ++ map (seen_line show_f show_n) block ++ after).
Proof.
  intros Q cap show_f show_n default age shuffle cs t Hp Hf Hn Hd1 Hd2 Hin Hk ms ms' r body D Hr (u & Fu & Ku) A Fit Inj.
  destruct (saw _ _ _ _ _ _ _ _ _ _ _ (proj1 Hr) A) as (ops & a & bs & ts & text & more & rest & Ra & Er & Et & Eb & Em & Ei). cbn in Eb. subst text.
  assert (Fi : find (fun x => seqb (t_name x) (t_name t)) (inserted ops) = Some u) by (rewrite Ei; apply find_prefix; exact Fu).
  assert (Sub : forall x, In x (inserted ops) -> In x (given age (ms ++ ms'))) by (intros x; rewrite Ei, given_app, Em, !in_app_iff; tauto).
  rewrite Forall_forall in Fit.
  destruct (C145_scraped_partial Q show_f show_n default cap ops a bs ts (shuffle r ts) body Hf Hn Hd1 Hd2) as (blocks & B1 & B2); auto.
  { apply Forall_forall. auto. }
  assert (L := run_lane_ok cap (t_name t) _ _ _ Ra).
  destruct (alookup seqb (t_name t) (pa_data a)) as [x|] eqn:El.
  2: { exfalso. unfold lane_ok in L. pose proof (find_named_none _ _ L) as N. unfold named in N. rewrite N in Fi. discriminate. }
  destruct x as [p|c s k samples].
  - destruct (C45_content _ _ _ _ _ _ _ Ra El) as (Hnm & Hm & t0 & F0 & K0). rewrite Fi in F0. injection F0 as <-.
    assert (Hi : In p (shuffle r ts)).
    { eapply Permutation_in; [apply Hp|]. eapply (reported_in _ (APerp p)); [exact Er| |reflexivity]. apply in_map_iff. exists (t_name t, APerp p). split; [reflexivity|]. apply alookup_in'. exact El. }
    destruct (Forall2_in_split _ _ _ _ B1 Hi) as (b1 & b & b2 & Eb & Ex).
    exists p, more, rest, b, (map (seen_line show_f show_n) (List.concat b1)), (map (seen_line show_f show_n) (List.concat b2)).
    split; [exact Em|]. split; [rewrite <- Ei, <- Ku, K0; exact Hm|]. split; [eapply given_told; eassumption|]. split; [exact Ex|].
    rewrite B2, Eb, concat_app, map_app. cbn [List.concat]. rewrite map_app. reflexivity.
  - exfalso. destruct L as [(t0 & F0 & K0) _]. unfold named in F0. rewrite Fi in F0. injection F0 as <-. cbn in K0. congruence.
Qed.
(** Summaries *)
Theorem C149_counted : forall (Q : QLib) cap show_f show_n default age gzip shuffle cs t, (forall n l, Permutation l (shuffle n l)) ->
  In (CDeliver (ETelemetry t)) cs -> t_kind t = MSummarize -> prom_counts cap show_f show_n default age gzip shuffle cs t.
Proof.
  intros Q cap show_f show_n default age gzip shuffle cs t Hp Hin Hk ms ms' r body D Hr (u & Fu & Ku) A.
  destruct (saw _ _ _ _ _ _ _ _ _ _ _ (proj1 Hr) A) as (ops & a & bs & ts & text & more & rest & Ra & Er & Et & Eb & Em & Ei).
  assert (Fi : find (fun x => seqb (t_name x) (t_name t)) (inserted ops) = Some u) by (rewrite Ei; apply find_prefix; exact Fu).
  exists (shuffle r ts), text, more, rest. split; [exact Et|]. split; [exact Eb|]. split; [exact Em|]. split; [eapply given_told; eassumption|].
  intros p Hi Hn. apply (Permutation_in _ (Permutation_sym (Hp r ts))) in Hi.
  destruct (reported_from _ _ _ Er Hi) as (x & Hx & Rx). apply in_map_iff in Hx as ((n & x') & E & Hx). cbn in E. subst x'.
  pose proof (run_named _ _ _ _ Ra) as Nm. rewrite Forall_forall in Nm. specialize (Nm _ Hx). cbn in Nm. pose proof (report_name _ _ _ Nm Rx) as Enm. rewrite Hn in Enm. subst n.
  destruct (run_keys _ _ _ _ Ra) as [Nd _]; [constructor|]. apply (In_alookup seqb seqb_eq) in Hx; [|exact Nd].
  assert (L := run_lane_ok cap (t_name t) _ _ _ Ra). rewrite Hx in L. destruct L as [(t0 & F0 & K0) L]. unfold named in F0. rewrite Fi in F0. injection F0 as <-.
  destruct x as [q|c s k [|s0 r0]]; [|discriminate Rx|].
  - exfalso. cbn in K0. destruct L as [L _]. congruence.
  - destruct L as (_ & Fs & _ & _ & Ek & _). inversion Fs as [|? ? [N0 K1] Fr]; subst.
    destruct (report_win c s (((N.of_nat (List.length (of_metric (t_name t) MSummarize (inserted ops))) - 1) mod 18446744073709551614 + 1)%N) s0 r0) as (p' & Rp & _ & Kp & _ & _ & Cp & _).
    { apply fold_add_kind; [assumption|]. eapply Forall_impl; [|exact Fr]. intros v [_ Hv]. exact Hv. }
    rewrite Rx in Rp. injection Rp as <-. split; [exact Kp|]. cbv zeta. rewrite <- Ei, Cp. intros Hlt.
    assert (1 <= N.of_nat (List.length (of_metric (t_name t) MSummarize (inserted ops))))%N.
    { apply find_some in Fi as [Hu Hnu]. assert (In u (of_metric (t_name t) MSummarize (inserted ops))). { apply filter_In. split; [exact Hu|]. rewrite Hnu, Ku, Hk. reflexivity. }
      destruct (of_metric (t_name t) MSummarize (inserted ops)); [destruct H|cbn; lia]. }
    rewrite N.mod_small; [lia|]. change (2 ^ 64 - 1)%N with 18446744073709551615%N in Hlt. lia.
Qed.
(** From end to end: a point a source sends is carried, unless something on its way has stopped, to a prometheus sink whose
    later scrapes show it. *)
Theorem C149_end_to_end : forall (Q : QLib) (S : Type) proc (st0 : string -> S) fint g t x l, distinct_ids g -> wire g = Going t -> execution proc st0 fint t x l -> fair g x l -> all_kept l ->
  forall cap show_f show_n default age gzip shuffle id n i p via d, (forall n l, Permutation l (shuffle n l)) ->
  In id (map fst (g_natives g ++ g_sources g)) -> In (ETelemetry p) (emitted id n (before l i)) ->
  way g id via d -> In d (g_sinks g) -> Forall (passes proc (ETelemetry p)) via ->
  exists j, i <= j /\ ((exists v, In v (via ++ [d]) /\ halted g (x j) v) \/
    (t_kind p <> MSummarize -> prom_exposes cap show_f show_n default age gzip shuffle (sr_calls (n_sink (x j) d)) p) /\
    (t_kind p = MSummarize -> prom_counts cap show_f show_n default age gzip shuffle (sr_calls (n_sink (x j) d)) p)).
Proof.
  intros Q S proc st0 fint g t x l Hd Hw Hx F K cap show_f show_n default age gzip shuffle id n i p via d Hp Hid He Hwy Hk Hps.
  destruct (C129_end_to_end Q S proc st0 fint g t x l Hd Hw Hx F K id n i (ETelemetry p) via d Hid He Logic.eq_refl Hwy Hk Hps) as (j & Hj & [H|H]); exists j; (split; [exact Hj|]); [auto|right].
  assert (Hc : In (CDeliver (ETelemetry p)) (sr_calls (n_sink (x j) d))).
  { unfold delivered in H. apply in_flat_map in H as (c & Hc & H). destruct c; try destruct H. subst. exact Hc. contradiction. }
  split; intros Hkind; [apply C149_exposed|apply C149_counted]; assumption.
Qed.
(** Not so of a point of another kind than the first of its name: the answers are as if it had not been sent. *)
Definition xsched (os : list (@sop xQ)) : list (@smove xQ) := flat_map xtold os.
Theorem C149_refuted : exists (cs : list sink_call) (t : telemetry) (ms ms0 ms' : list smove) (body : string),
  In (CDeliver (ETelemetry t)) cs /\ does_all prom_does cs (ScrapeSpec.told ms) /\ t_kind t <> MSummarize /\
  asked_after 10 (fun _ => "1") (fun _ => "n") [] None None (fun _ l => l) ms ms' 7 body /\
  ~ In t (given None ms0) /\ asked_after 10 (fun _ => "1") (fun _ => "n") [] None None (fun _ l => l) ms0 ms' 7 body.
Proof.
  exists [CDeliver (ETelemetry (xsum1 "a")); CDeliver (ETelemetry (pt "a" (VSet fone) false None 7))], (pt "a" (VSet fone) false None 7),
    (xsched [SDeliver 5 (xsum1 "a"); SDeliver 5 (pt "a" (VSet fone) false None 7)]), (xsched [SDeliver 5 (xsum1 "a")]), (xasked 7 ++ xgot), xbody.
  split; [right; left; reflexivity|]. split.
  { exists [[SDeliver 5 (xsum1 "a")]; [SDeliver 5 (pt "a" (VSet fone) false None 7)]]. split; [|reflexivity]. constructor; [exists 5%Z; reflexivity|]. constructor; [exists 5%Z; reflexivity|constructor]. }
  split; [discriminate|]. split; [|split].
  - exists (@mkScrape xQ (mkAggr [("a", APerp (xsum1 "a"))] 10) LFree false SIdle VPoll [] false ([EvApplied (PInsert (xsum1 "a")); EvApplied (PInsert (pt "a" (VSet fone) false None 7))]) 0 0), (@mkScrape xQ (mkAggr [("a", APerp (xsum1 "a"))] 10) LFree false SIdle VPoll [] false ([EvApplied (PInsert (xsum1 "a")); EvApplied (PInsert (pt "a" (VSet fone) false None 7))] ++ [EvTaken 7; EvAnswer 7 (A200 [("Content-Type", "text/plain; version=0.0.4")] xbody true)]) 1 0), [EvTaken 7], [("Content-Type", "text/plain; version=0.0.4")], true, []. split; [reflexivity|]. split; [reflexivity|]. split; [reflexivity|]. split; [reflexivity|left; reflexivity].
  - cbn. intros [H|[]]. discriminate.
  - exists (@mkScrape xQ (mkAggr [("a", APerp (xsum1 "a"))] 10) LFree false SIdle VPoll [] false ([EvApplied (PInsert (xsum1 "a"))]) 0 0), (@mkScrape xQ (mkAggr [("a", APerp (xsum1 "a"))] 10) LFree false SIdle VPoll [] false ([EvApplied (PInsert (xsum1 "a"))] ++ [EvTaken 7; EvAnswer 7 (A200 [("Content-Type", "text/plain; version=0.0.4")] xbody true)]) 1 0), [EvTaken 7], [("Content-Type", "text/plain; version=0.0.4")], true, []. split; [reflexivity|]. split; [reflexivity|]. split; [reflexivity|]. split; [reflexivity|left; reflexivity].
Qed.
(** Two points of a sum, a flush between them and a third point while the request waits. *)
Definition xms : list (@smove xQ) := xsched [SDeliver 5 (xsum1 "a"); SFlush 6; SDeliver 7 (xsum1 "a")].
Definition xms' : list (@smove xQ) := [MArrives 7] ++ xtold (SDeliver 8 (xsum1 "a")) ++ [MPoll false; MRecv false] ++ xgot ++ xtold (SDeliver 9 (xsum1 "a")).
Example C149_ex : let cs := [CDeliver (ETelemetry (xsum1 "a")); CFlushTimer 2; CDeliver (ELog (mkLog 7 "p" "v" [] None)); CDeliver (ETelemetry (xsum1 "a"))] in
  does_all prom_does cs (ScrapeSpec.told xms) /\ in_reach None xms xms' (xsum1 "a") /\ kind_fits None xms (xsum1 "a") /\ point_fit (xsum1 "a") /\
  asked_after 10 (fun _ => "1") (fun _ => "n") [] None None (fun _ l => l) xms xms' 7 xbody /\
  given None xms' = [xsum1 "a"] ++ [xsum1 "a"] /\
  scrape_text xbody = Some [SType "a" "counter"; SSample "a" [] "1"] /\
  option_map t_sum (merged (of_metric "a" MSum (given None xms ++ [xsum1 "a"]))) = Some (Some (fofZ 3)).
Proof.
  cbv zeta. split.
  { exists [[SDeliver 5 (xsum1 "a")]; [SFlush 6]; []; [SDeliver 7 (xsum1 "a")]]. split; [|reflexivity]. repeat (constructor; [cbn; eauto|]). constructor. }
  split; [split; [apply Forall_forall; intros []; exact (fun _ => Logic.I)|reflexivity]|].
  split; [exists (xsum1 "a"); split; reflexivity|]. split; [split; [reflexivity|split; constructor]|]. split.
  { exists (@mkScrape xQ (mkAggr [("a", APerp (t_add (xsum1 "a") (xsum1 "a")))] 10) LFree false SIdle VPoll [] false ([EvApplied (PInsert (xsum1 "a")); EvApplied (PPurge 6); EvApplied (PInsert (xsum1 "a"))]) 0 0), (@mkScrape xQ (mkAggr [("a", APerp (t_add (t_add (t_add (xsum1 "a") (xsum1 "a")) (xsum1 "a")) (xsum1 "a")))] 10) LFree false SIdle VPoll [] false ([EvApplied (PInsert (xsum1 "a")); EvApplied (PPurge 6); EvApplied (PInsert (xsum1 "a"))] ++ [EvApplied (PInsert (xsum1 "a")); EvTaken 7; EvAnswer 7 (A200 [("Content-Type", "text/plain; version=0.0.4")] xbody true); EvApplied (PInsert (xsum1 "a"))]) 1 0), [EvApplied (PInsert (xsum1 "a")); EvTaken 7], [("Content-Type", "text/plain; version=0.0.4")], true, [EvApplied (PInsert (xsum1 "a"))]. split; [reflexivity|]. split; [reflexivity|]. split; [reflexivity|]. split; [reflexivity|right; left; reflexivity]. }
  split; [reflexivity|]. split; [vm_compute; reflexivity|]. lazy. reflexivity.
Qed.
(** with a threshold of 3 the point of time 8 that comes at 5 is taken, that of time 9 is not *)
Example C149_age_ex : let a := pt "a" (VSum fone) false None 8 in let ms := xsched [SDeliver 5 a; SDeliver 5 (pt "a" (VSum fone) false None 9)] in
  in_reach (Some 3%N) ms [] a /\ kind_fits (Some 3%N) ms a /\ given (Some 3%N) ms = [a].
Proof.
  cbv zeta. split; [|split; [eexists; split; reflexivity|reflexivity]]. split; [constructor; [split; reflexivity|]; constructor; [split; reflexivity|constructor]|].
  intros now [E|[E|[]]]; injection E as <-; reflexivity.
Qed.
Print Assumptions C149_exposed.
Print Assumptions C149_read_partial.
Print Assumptions C149_counted.
Print Assumptions C149_end_to_end.
Print Assumptions C149_refuted.
