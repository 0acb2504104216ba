(** * C138-C141: what a source sends is flushed by the sinks, posted to InfluxDB, offered to elasticsearch, written to wavefront. *)
From Verif Require Import Base BaseFacts TelemetryModel TelemetrySpec BucketsModel BucketsSpec ConsoleModel ConsoleSpec ConsoleProps FlowModel FlowSpec FlowProofs QExample TelemetryProps FlowProps
  TopologyModel TopologySpec TopologyProofs TopologyProps NetworkModel NetworkSpec NetworkProofs NetworkProps LiveSpec LiveProofs LiveProps PulseSpec PulseProofs PulseProps MainModel MainSpec MainProofs MainProps ShownSpec ShownProofs ShownProps
  ElasticModel ElasticSpec ElasticProofs ElasticProps CacheModel CacheProofs CacheProps WavefrontModel WavefrontSpec WavefrontProofs WavefrontProps InfluxModel InfluxSpec InfluxProofs InfluxProps ArriveSpec ArriveProofs.
From Coq Require Import Lia.
Open Scope string_scope. Open Scope list_scope. Open Scope nat_scope.

(** ** C138: a sink is flushed after everything delivered to it *)
Lemma flushed_then {Q : QLib} e cs1 f cs2 : In e (delivered cs1) -> flushing f = true -> flushed_after e (cs1 ++ f :: cs2).
Proof.
  intros Hin Hf. unfold delivered in Hin. apply in_flat_map in Hin as (c & Hc & He). destruct c as [e'| | |]; try destruct He as []; try contradiction. subst e'.
  apply in_split in Hc as (c1 & c2 & ->). exists c1, c2, f, cs2. rewrite <- app_assoc. auto.
Qed.
(** whatever the run, a sink that stopped was flushed after every event delivered to it *)
Theorem C138_at_stop : forall (Q : QLib) (S : Type) proc (st0 : string -> S) fint g t tr s d, distinct_ids g -> wire g = Going t -> nrun proc st0 fint t tr s ->
  In d (g_sinks g) -> sr_stopped (n_sink s d) = true -> forall e, In e (delivered (sr_calls (n_sink s d))) -> flushed_after e (sr_calls (n_sink s d)).
Proof.
  intros Q S proc st0 fint g t tr s d Hd Hw R Hk Hs e He. destruct (stopped_calls proc st0 fint g t Hd Hw tr s d R Hk Hs) as (cs & E). rewrite E in *.
  apply flushed_then; [|reflexivity]. unfold delivered in *. rewrite flat_map_app in He. cbn in He. rewrite app_nil_r in He. exact He.
Qed.
(** from end to end, while the process runs *)
Theorem C138_end_to_end : forall (Q : QLib) (S : Type) proc (st0 : string -> S) fint g t x l, distinct_ids g -> wire g = Going t -> execution proc st0 fint t x l -> fair g x l -> timer_goes l -> all_kept l ->
  forall id n i e via d k, In id (map fst (g_natives g ++ g_sources g)) -> In e (emitted id n (before l i)) -> is_data e = true ->
  way g id via d -> In d (g_sinks g) -> Forall (passes proc e) via -> handed proc st0 g d -> fint d = Some k ->
  exists j, i <= j /\ ((exists v, In v (via ++ [d]) /\ halted g (x j) v) \/ (2 ^ 64 <= N.max 1 k * (N.of_nat (pulses (before l j)) + 1))%N \/
    flushed_after e (sr_calls (n_sink (x j) d))).
Proof.
  intros Q S proc st0 fint g t x l Hd Hw Hx F T K id n i e via d k Hid He Hda Hwy Hk Hp Hh Hfi.
  destruct (C129_end_to_end Q S proc st0 fint g t x l Hd Hw Hx F K id n i e via d Hid He Hda Hwy Hk Hp) as (j & Hj & [H|H]); [exists j; auto|].
  destruct (N.lt_ge_cases (N.max 1 k * (N.of_nat (pulses (before l j)) + 1)) (2 ^ 64)) as [Hb|Hb]; [|exists j; auto].
  destruct (flush_again proc st0 fint g t Hd Hw x l Hx F id via d k j Hid Hwy Hk Hh (fun i u v n _ => K i u v _) T Hfi Hb) as (j2 & Hj2 & [H2|(m & m1 & m2 & E)]); exists j2; (split; [lia|]); [auto|].
  right. right. rewrite E, app_assoc. apply flushed_then; [|reflexivity]. unfold delivered. rewrite flat_map_app. apply in_or_app. left. exact H.
Qed.
(** and when main returns, if nothing has two upstreams, no filter makes shutdown markers and no queue was ever full *)
Theorem C138_exit : forall (Q : QLib) (S : Type) proc (st0 : string -> S) fint g t so ko fo tr p,
  distinct_ids g -> wire g = Going t -> main_holds g so ko fo -> prun proc st0 fint t (chores so ko fo) tr p -> returned p ->
  quiet proc st0 -> single_upstreams g -> no_drops (net_trace tr) ->
  forall u d, upstream g u d -> In d (g_sinks g) ->
  exists cs, sr_calls (n_sink (p_net p) d) = cs ++ [CShutdown] /\ delivered cs = filter is_data (arrived d (net_trace tr)).
Proof.
  intros Q S proc st0 fint g t so ko fo tr p Hd Hw M R E Hq Hs Hn u d Hu Hk.
  assert (N := pi_net _ _ _ _ _ _ _ (run_inv _ _ _ _ _ _ _ R)).
  assert (St : sr_stopped (n_sink (p_net p) d) = true).
  { apply (C132_exit Q S proc st0 fint g t so ko fo tr p M R E (TSink d)). unfold threads. apply in_or_app. right. apply in_or_app. left. apply in_map. exact Hk. }
  destruct (stopped_calls proc st0 fint g t Hd Hw _ _ d N Hk St) as (cs & Ec). exists cs. split; [exact Ec|].
  rewrite <- (proj1 (C132_exit_delivered_partial Q S proc st0 fint g t so ko fo tr p Hd Hw M R E Hq Hs Hn u d Hu Hk)), Ec. unfold delivered. rewrite flat_map_app. cbn. rewrite app_nil_r. reflexivity.
Qed.

(** ** C139: InfluxDB *)
(** of the calls of an InfluxDB sink: what was delivered before a flush was taken by the server, point by point, in order *)
Theorem C139_posted : forall (Q : QLib) show_f show_n tags cs1 f cs2, shows show_f -> flushing f = true ->
  influx_gives show_f show_n tags (cs1 ++ f :: cs2) (points_in (delivered cs1)).
Proof. intros. apply influx_flushed; assumption. Qed.
Theorem C139_end_to_end : forall (Q : QLib) (S : Type) proc (st0 : string -> S) fint g t x l, distinct_ids g -> wire g = Going t -> execution proc st0 fint t x l -> fair g x l -> timer_goes l -> all_kept l ->
  forall show_f show_n tags id n i p via d k, shows show_f -> In id (map fst (g_natives g ++ g_sources g)) -> In (ETelemetry p) (emitted id n (before l i)) ->
  way g id via d -> In d (g_sinks g) -> Forall (passes proc (ETelemetry p)) via -> handed proc st0 g d -> fint d = Some k ->
  exists j, i <= j /\ ((exists v, In v (via ++ [d]) /\ halted g (x j) v) \/ (2 ^ 64 <= N.max 1 k * (N.of_nat (pulses (before l j)) + 1))%N \/
    exists ts, In p ts /\ influx_gives show_f show_n tags (sr_calls (n_sink (x j) d)) ts).
Proof.
  intros Q S proc st0 fint g t x l Hd Hw Hx F T K show_f show_n tags id n i p via d k Hsh Hid He Hwy Hk Hp Hh Hfi.
  destruct (C138_end_to_end Q S proc st0 fint g t x l Hd Hw Hx F T K id n i (ETelemetry p) via d k Hid He Logic.eq_refl Hwy Hk Hp Hh Hfi) as (j & Hj & [H|[H|H]]); exists j; (split; [exact Hj|]); auto.
  right. right. destruct H as (c1 & c2 & f & c3 & E & Hf). exists (points_in (delivered (c1 ++ CDeliver (ETelemetry p) :: c2))). split.
  - apply in_flat_map. exists (ETelemetry p). split; [|left; reflexivity]. unfold delivered. rewrite flat_map_app. apply in_or_app. right. left. reflexivity.
  - rewrite E. replace (c1 ++ CDeliver (ETelemetry p) :: c2 ++ f :: c3) with ((c1 ++ CDeliver (ETelemetry p) :: c2) ++ f :: c3) by (rewrite <- app_assoc; reflexivity). apply C139_posted; assumption.
Qed.
Theorem C139_exit : forall (Q : QLib) (S : Type) proc (st0 : string -> S) fint g t so ko fo tr p,
  distinct_ids g -> wire g = Going t -> main_holds g so ko fo -> prun proc st0 fint t (chores so ko fo) tr p -> returned p ->
  quiet proc st0 -> single_upstreams g -> no_drops (net_trace tr) ->
  forall show_f show_n tags u d, shows show_f -> upstream g u d -> In d (g_sinks g) ->
  influx_gives show_f show_n tags (sr_calls (n_sink (p_net p) d)) (points_in (arrived d (net_trace tr))).
Proof.
  intros Q S proc st0 fint g t so ko fo tr p Hd Hw M R E Hq Hs Hn show_f show_n tags u d Hsh Hu Hk.
  destruct (C138_exit Q S proc st0 fint g t so ko fo tr p Hd Hw M R E Hq Hs Hn u d Hu Hk) as (cs & -> & Ed).
  replace (points_in (arrived d (net_trace tr))) with (points_in (delivered cs)); [apply C139_posted; auto|].
  rewrite Ed. generalize (arrived d (net_trace tr)). intros es. unfold points_in. induction es as [|e es IH]; [reflexivity|]. destruct e; cbn [filter is_data flat_map]; rewrite ?IH; reflexivity.
Qed.

(** ** C140: elasticsearch *)
Theorem C140_offered : forall (Q : QLib) render uuid_str limit prefix ty tags cs l, flushed_after (ELog l) cs -> line_ok l -> tm_ok tags ->
  elastic_offers render uuid_str limit prefix ty tags cs l.
Proof. intros. apply elastic_flushed; assumption. Qed.
(** a line that a stopped sink did not get stored was refused more often than the limit, or asked for in its last request, whose
    answer did not say that it is stored *)
Theorem C140_left : forall (Q : QLib) render uuid_str limit prefix ty tags cs os e log, (limit < 255)%N -> NoDup (map fst (es_deliveries os)) ->
  does_all elastic_does (cs ++ [CShutdown]) os -> es_run render uuid_str (es_init limit prefix ty tags) os = Some (e, log) ->
  forall u l, In (u, l) (es_deliveries os) ->
  es_acked u (es_received log) = true \/ (limit < es_refusals u (es_received log))%N \/
  exists log0 req ans, log = log0 ++ [(req, ans)] /\ In u (map a_id req) /\ forall its, ans = ESItems its -> ~ In (Some u, true) its.
Proof.
  intros Q render uuid_str limit prefix ty tags cs os e log Hl Hn D E u l Hu.
  apply does_app in D as (os1 & os2 & D1 & D2 & ->). apply does_cons in D2 as (of & os3 & (a & ->) & D3 & ->). destruct D3 as (ps & Fp & ->). inversion Fp; subst. cbn [List.concat app] in *. rewrite ?app_nil_r in *.
  destruct (es_acked u (es_received log)) eqn:Ea; [auto|]. destruct (N.ltb_spec limit (es_refusals u (es_received log))) as [Hr|Hr]; [auto|]. right. right.
  destruct (es_run_split render uuid_str _ _ _ _ _ E) as (e1 & l1 & l2 & R1 & R2 & ->). cbn [es_run] in R2.
  destruct (es_flush render uuid_str e1 a) as [[e2 req]|] eqn:Ef; [|discriminate]. injection R2 as <- <-.
  assert (Ed : es_deliveries (os1 ++ [ESFlush a]) = es_deliveries os1) by (unfold es_deliveries; rewrite flat_map_app; cbn; apply app_nil_r). rewrite Ed in *.
  assert (Hop : In (u, l) (es_open_lines limit (es_deliveries os1) (es_received l1))).
  { apply filter_In. split; [exact Hu|]. cbn [fst]. unfold es_received in Ea, Hr. rewrite flat_map_app in Ea, Hr. fold (es_received l1) in Ea, Hr.
    unfold es_acked in Ea. rewrite existsb_app in Ea. apply orb_false_iff in Ea as [Ea _]. unfold es_acked. rewrite Ea. cbn. apply N.leb_le.
    unfold es_refusals in *. rewrite filter_app, app_length in Hr. lia. }
  assert (exists body, req = Some body) as (body & ->).
  { destruct (C38_lines_partial render uuid_str limit prefix ty tags os1 e1 l1 Hl Hn R1) as (Eb & _). unfold es_flush in Ef. destruct (es_buffer e1) as [|m0 ms] eqn:E0; [rewrite <- Eb in Hop; destruct Hop|]. rewrite <- E0 in *.
    destruct (es_body render uuid_str e1 (es_buffer e1)) as [b|]; [|discriminate]. destruct a as [| |its]; [injection Ef as _ <-; eauto..|]. destruct (es_items _ its); [|discriminate]. injection Ef as _ <-. eauto. }
  exists l1, body, a. split; [reflexivity|]. split.
  - rewrite (C38_requests render uuid_str limit prefix ty tags os1 e1 l1 a e2 body Hl Hn R1 Ef). apply (in_map fst) in Hop. exact Hop.
  - intros its -> Hin. unfold es_received in Ea. rewrite flat_map_app in Ea. unfold es_acked in Ea. rewrite existsb_app in Ea. apply orb_false_iff in Ea as [_ Ea]. cbn in Ea. rewrite app_nil_r in Ea.
    assert (existsb (mentions u true) its = true) by (apply existsb_exists; exists (Some u, true); split; [exact Hin|unfold mentions; cbn; rewrite N.eqb_refl; reflexivity]). congruence.
Qed.
Theorem C140_end_to_end : forall (Q : QLib) (S : Type) proc (st0 : string -> S) fint g t x l, distinct_ids g -> wire g = Going t -> execution proc st0 fint t x l -> fair g x l -> timer_goes l -> all_kept l ->
  forall render uuid_str limit prefix ty tags id n i ln via d k, tm_ok tags -> line_ok ln -> In id (map fst (g_natives g ++ g_sources g)) -> In (ELog ln) (emitted id n (before l i)) ->
  way g id via d -> In d (g_sinks g) -> Forall (passes proc (ELog ln)) via -> handed proc st0 g d -> fint d = Some k ->
  exists j, i <= j /\ ((exists v, In v (via ++ [d]) /\ halted g (x j) v) \/ (2 ^ 64 <= N.max 1 k * (N.of_nat (pulses (before l j)) + 1))%N \/
    elastic_offers render uuid_str limit prefix ty tags (sr_calls (n_sink (x j) d)) ln).
Proof.
  intros Q S proc st0 fint g t x l Hd Hw Hx F T K render uuid_str limit prefix ty tags id n i ln via d k Ht Hl Hid He Hwy Hk Hp Hh Hfi.
  destruct (C138_end_to_end Q S proc st0 fint g t x l Hd Hw Hx F T K id n i (ELog ln) via d k Hid He Logic.eq_refl Hwy Hk Hp Hh Hfi) as (j & Hj & [H|[H|H]]); exists j; (split; [exact Hj|]); auto.
  right. right. apply C140_offered; assumption.
Qed.
Theorem C140_exit : forall (Q : QLib) (S : Type) proc (st0 : string -> S) fint g t so ko fo tr p,
  distinct_ids g -> wire g = Going t -> main_holds g so ko fo -> prun proc st0 fint t (chores so ko fo) tr p -> returned p ->
  quiet proc st0 -> single_upstreams g -> no_drops (net_trace tr) ->
  forall render uuid_str limit prefix ty tags u d ln, tm_ok tags -> line_ok ln -> upstream g u d -> In d (g_sinks g) -> In (ELog ln) (arrived d (net_trace tr)) ->
  elastic_offers render uuid_str limit prefix ty tags (sr_calls (n_sink (p_net p) d)) ln.
Proof.
  intros Q S proc st0 fint g t so ko fo tr p Hd Hw M R E Hq Hs Hn render uuid_str limit prefix ty tags u d ln Ht Hl Hu Hk Hin.
  destruct (C138_exit Q S proc st0 fint g t so ko fo tr p Hd Hw M R E Hq Hs Hn u d Hu Hk) as (cs & -> & Ed).
  apply C140_offered; [|assumption..]. apply flushed_then; [|reflexivity]. rewrite Ed. apply filter_In. auto.
Qed.

(** ** C141: wavefront *)
Theorem C141_written : forall (Q : QLib) hkind hfun show_f show_n show_z c cs t, (forall a b, feqb a b = true -> show_f a = show_f b) -> (0 < wc_span c)%Z -> wc_age c = None ->
  flushed_after (ETelemetry t) cs -> wave_writes hkind hfun show_f show_n show_z c cs t.
Proof. intros. apply wave_flushed; assumption. Qed.
Theorem C141_end_to_end : forall (Q : QLib) (S : Type) proc (st0 : string -> S) fint g t x l, distinct_ids g -> wire g = Going t -> execution proc st0 fint t x l -> fair g x l -> timer_goes l -> all_kept l ->
  forall hkind hfun show_f show_n show_z c id n i p via d k, (forall a b, feqb a b = true -> show_f a = show_f b) -> (0 < wc_span c)%Z -> wc_age c = None ->
  In id (map fst (g_natives g ++ g_sources g)) -> In (ETelemetry p) (emitted id n (before l i)) ->
  way g id via d -> In d (g_sinks g) -> Forall (passes proc (ETelemetry p)) via -> handed proc st0 g d -> fint d = Some k ->
  exists j, i <= j /\ ((exists v, In v (via ++ [d]) /\ halted g (x j) v) \/ (2 ^ 64 <= N.max 1 k * (N.of_nat (pulses (before l j)) + 1))%N \/
    wave_writes hkind hfun show_f show_n show_z c (sr_calls (n_sink (x j) d)) p).
Proof.
  intros Q S proc st0 fint g t x l Hd Hw Hx F T K hkind hfun show_f show_n show_z c id n i p via d k Hs Hsp Ha Hid He Hwy Hk Hp Hh Hfi.
  destruct (C138_end_to_end Q S proc st0 fint g t x l Hd Hw Hx F T K id n i (ETelemetry p) via d k Hid He Logic.eq_refl Hwy Hk Hp Hh Hfi) as (j & Hj & [H|[H|H]]); exists j; (split; [exact Hj|]); auto.
  right. right. apply C141_written; assumption.
Qed.
Theorem C141_exit : forall (Q : QLib) (S : Type) proc (st0 : string -> S) fint g t so ko fo tr p,
  distinct_ids g -> wire g = Going t -> main_holds g so ko fo -> prun proc st0 fint t (chores so ko fo) tr p -> returned p ->
  quiet proc st0 -> single_upstreams g -> no_drops (net_trace tr) ->
  forall hkind hfun show_f show_n show_z c u d pt, (forall a b, feqb a b = true -> show_f a = show_f b) -> (0 < wc_span c)%Z -> wc_age c = None ->
  upstream g u d -> In d (g_sinks g) -> In (ETelemetry pt) (arrived d (net_trace tr)) ->
  wave_writes hkind hfun show_f show_n show_z c (sr_calls (n_sink (p_net p) d)) pt.
Proof.
  intros Q S proc st0 fint g t so ko fo tr p Hd Hw M R E Hq Hs Hn hkind hfun show_f show_n show_z c u d pt H1 H2 H3 Hu Hk Hin.
  destruct (C138_exit Q S proc st0 fint g t so ko fo tr p Hd Hw M R E Hq Hs Hn u d Hu Hk) as (cs & -> & Ed).
  apply C141_written; auto. apply flushed_then; [|reflexivity]. rewrite Ed. apply filter_In. auto.
Qed.

(** ** Examples *)
(** the execution of the example of C130, where a source sends a line in every round *)
Example C138_ex : execution xpass (fun _ => tt) (fun _ => Some 2%N) xrow_started xx PulseProps.xl /\ fair xrow xx PulseProps.xl /\ timer_goes PulseProps.xl /\ all_kept PulseProps.xl /\
  exists j, (exists v, In v (["filters.f"] ++ ["sinks.null"]) /\ halted xrow (xx j) v) \/ (2 ^ 64 <= N.max 1 2 * (N.of_nat (pulses (before PulseProps.xl j)) + 1))%N \/
    flushed_after xlog (sr_calls (n_sink (xx j) "sinks.null")).
Proof.
  destruct C130_through_ex as (X & F & T & K & Wy & Hh & _ & Hin). repeat (split; [assumption|]).
  assert (Hs : In "sources.a" (map fst (g_natives xrow ++ g_sources xrow))) by (left; reflexivity).
  assert (Hk : In "sinks.null" (g_sinks xrow)) by (left; reflexivity).
  assert (Ps : Forall (passes xpass xlog) ["filters.f"]) by (constructor; [intros st; split; [left; reflexivity|reflexivity]|constructor]).
  destruct (C138_end_to_end xQ unit _ _ _ xrow xrow_started xx PulseProps.xl xrow_ids xrow_wired X F T K "sources.a" 1 1 xlog ["filters.f"] "sinks.null" 2%N Hs Hin Logic.eq_refl Wy Hk Ps Hh Logic.eq_refl) as (j & _ & H).
  exists j. exact H.
Qed.
Definition xcs (e : event) : list sink_call := [CDeliver e; CFlushTimer 2; CDeliver e; CDeliver EShutdown; CShutdown].
Example C139_ex : let t := pt "a" (VSet fone) false None 7 in
  does_all influx_does (xcs (ETelemetry t)) [IDeliver t; IFlush [IError; IStatus 503; IStatus 204]; IDeliver t; IFlush [IStatus 200]] /\
  option_map snd (i_run (fun _ => "1") (fun _ => "7") [] [IDeliver t; IFlush [IError; IStatus 503; IStatus 204]; IDeliver t; IFlush [IStatus 200]] influx_init (mkICounts 0 0 0 0)) =
    Some (let text := ("a value=1 7" ++ nl)%string in [[(text, 0%N); (text, 0%N); (text, 1%N)]; [(text, 0%N)]]).
Proof.
  cbn zeta. split; [|lazy; reflexivity].
  exists [[IDeliver (pt "a" (VSet fone) false None 7)]; [IFlush [IError; IStatus 503; IStatus 204]]; [IDeliver (pt "a" (VSet fone) false None 7)]; []; [IFlush [IStatus 200]]]. split; [|reflexivity].
  repeat (constructor; [cbn; eauto|]). constructor.
Qed.
Example C140_ex : let l := ElasticProps.xl "v" [("f", "w")] in
  does_all elastic_does (xcs (ELog l)) [ESDeliver 1 l; ESFlush ESNoResponse; ESDeliver 2 l; ESFlush (ESItems [(Some 2%N, true); (Some 1%N, false)])] /\ line_ok l /\
  flushed_after (ELog l) (xcs (ELog l)) /\
  exists e log, es_run xrender xuuid (es_init 3 None "t" []) [ESDeliver 1 l; ESFlush ESNoResponse; ESDeliver 2 l; ESFlush (ESItems [(Some 2%N, true); (Some 1%N, false)])] = Some (e, log) /\
    map (fun r => map a_id (fst r)) log = [[1]; [1; 2]]%N /\ es_acked 1 (es_received log) = false /\ es_refusals 1 (es_received log) = 1%N.
Proof.
  cbn zeta. split; [|split; [|split]].
  - exists [[ESDeliver 1 (ElasticProps.xl "v" [("f", "w")])]; [ESFlush ESNoResponse]; [ESDeliver 2 (ElasticProps.xl "v" [("f", "w")])]; []; [ESFlush (ESItems [(Some 2%N, true); (Some 1%N, false)])]]. split; [|reflexivity].
    repeat (constructor; [cbn; eauto|]). constructor.
  - split; [constructor; [intros []|constructor]|exact Logic.I].
  - exists [], [], (CFlushTimer 2). eexists. split; reflexivity.
  - eexists _, _. split; [vm_compute; reflexivity|]. vm_compute. auto.
Qed.

(** two points of one second, delivered before one flush, are one line of the text written *)
Definition xwc : wcfg := mkWcfg 1 [] (mkPC false false false false) [] None.
Example C141_ex : let t := pt "a" (VSum fone) false None 7 in
  does_all wave_does (xcs (ETelemetry t)) [WDeliver 0 t; WFlush 9 0 0 [AWrite false 3; AConnect true; AWrite true 0]; WDeliver 0 t; WFlush 9 0 0 [AWrite true 0]] /\
  flushed_after (ETelemetry t) (xcs (ETelemetry t)) /\ (0 < wc_span xwc)%Z /\ wc_age xwc = None /\
  option_map snd (w_run (fun _ _ => 0%N) (fun _ => 0%N) (fun _ => "1") (fun _ => "1") (fun _ => "7") xwc
    [WDeliver 0 t; WFlush 9 0 0 [AWrite false 3; AConnect true; AWrite true 0]; WDeliver 0 t; WFlush 9 0 0 [AWrite true 0]] (wave_init xwc true)) =
    Some (let text := ("a 1 7 " ++ nl)%string in [[(text, false, 3); (text, true, 7)]; [(text, true, 7)]]).
Proof.
  cbn zeta. split; [|split; [|split; [|split; [|lazy; reflexivity]]]]; [|exists [], [], (CFlushTimer 2); eexists; split; reflexivity|reflexivity|reflexivity].
  exists [[WDeliver 0 (pt "a" (VSum fone) false None 7)]; [WFlush 9 0 0 [AWrite false 3; AConnect true; AWrite true 0]]; [WDeliver 0 (pt "a" (VSum fone) false None 7)]; []; [WFlush 9 0 0 [AWrite true 0]]]. split; [|reflexivity].
  repeat (constructor; [cbn; eauto|]). constructor.
Qed.
Print Assumptions C138_at_stop.
Print Assumptions C138_end_to_end.
Print Assumptions C138_exit.
Print Assumptions C139_posted.
Print Assumptions C139_end_to_end.
Print Assumptions C139_exit.
Print Assumptions C140_offered.
Print Assumptions C140_left.
Print Assumptions C140_end_to_end.
Print Assumptions C140_exit.
Print Assumptions C141_written.
Print Assumptions C141_end_to_end.
Print Assumptions C141_exit.
