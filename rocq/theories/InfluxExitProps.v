(** * C163: when the process has ended, InfluxDB has taken every point exactly once, the counts clients wrote among them. *)
From Verif Require Import Base BaseFacts FloatFacts TelemetryModel TelemetrySpec QExample TelemetryProps BucketsModel BucketsSpec ConsoleModel ConsoleSpec ConsoleProofs FlowModel FlowSpec FlowProofs FlowProps
  TopologyModel TopologySpec TopologyProofs TopologyProps NetworkModel NetworkSpec NetworkProofs NetworkProps MainModel MainSpec MainProofs MainProps ShownSpec ShownProofs
  ParseModel ParseSpec ParseProofs ParseProps NumberModel NumberSpec NumberProps AcceptModel DatagramModel DatagramSpec DatagramProofs DatagramProps
  WavefrontModel WavefrontSpec WavefrontProofs WavefrontProps ArriveSpec ArriveProofs ArriveProps RoundSpec CountSpec CountProps ConserveSpec ConserveProofs ConserveProps WholeProps StatsdExitProps InfluxModel InfluxSpec InfluxProofs InfluxProps.
From Coq Require Import Lia Permutation.
Open Scope string_scope. Open Scope list_scope. Open Scope nat_scope.


(** A sink running the calls [cs] to their end, whatever the server answers, has given the server exactly the points [ts],
    in order, each in one accepted request. *)
Definition influx_gave `{Q : QLib} show_f show_n (tags : tagmap) (cs : list sink_call) (ts : list telemetry) : Prop :=
  forall os c s c' posts, does_all influx_does cs os -> i_run show_f show_n tags os influx_init c = Some (s, c', posts) ->
  exists batches, all3 (posted show_f show_n tags) batches posts (influx_answers os) /\ List.concat batches = ts.

Section Lemmas.
Context `{Q : QLib}.
Lemma influx_ended show_f show_n tags cs f : shows show_f -> flushing f = true -> influx_gave show_f show_n tags (cs ++ [f]) (points_among (FlowSpec.delivered cs)).
Proof.
  intros Hsh Hf os c s c' posts D E. apply does_app in D as (os1 & os2 & D1 & D2 & ->). apply does_cons in D2 as (of & os3 & Df & D3 & ->). destruct D3 as (ps & F & ->). inversion F; subst. cbn [List.concat] in *. rewrite app_nil_r in *.
  assert (exists ans, of = [IFlush ans]) as (ans & ->) by (destruct f; [discriminate|..]; exact Df).
  destruct (influx_run_app show_f show_n tags _ _ _ _ _ _ _ E) as (s1 & c1 & p1 & p2 & R1 & R2 & ->). destruct (influx_so_far show_f show_n Hsh tags _ _ _ _ _ _ R1) as (b1 & A1 & E1).
  destruct (influx_so_far show_f show_n Hsh tags _ _ _ _ _ _ R2) as (bf & Af & Ef2). cbn [i_run] in R2. destruct (i_flush show_f show_n tags s1 c1 ans) as [| |s2 c2 pf] eqn:Ef; try discriminate. injection R2 as <- <- <-.
  exists (b1 ++ bf). split; [unfold influx_answers; rewrite flat_map_app; apply all3_app; [exact A1|exact Af]|].
  assert (E0 : i_aggrs s2 = []) by (destruct (C58_posted_until_accepted Q show_f show_n Hsh tags s1 c1 ans s2 c2 pf Ef) as (? & ? & ? & _ & _ & _ & _ & H); exact H).
  rewrite E0, app_nil_r in Ef2. cbn in Ef2. rewrite app_nil_r in Ef2. rewrite concat_app, <- Ef2, <- E1. cbn. rewrite (influx_points_calls _ _ D1). reflexivity.
Qed.
Lemma one_thread (S : Type) proc (st0 : string -> S) fint g t ntr s u d : distinct_ids g -> wire g = Going t -> nrun proc st0 fint t ntr s -> single_upstreams g ->
  upstream g u d -> In u (map fst (g_natives g ++ g_sources g)) -> (forall k, arrived_from (Src u k) d ntr = emitted u k ntr) -> (forall k, 1 <= k -> emitted u k ntr = []) ->
  filter is_data (arrived d ntr) = filter is_data (emitted u 0 ntr).
Proof.
  intros Hd Hw N Hs Hu Hi A HK. set (items := flat_map (fun l => match l with LCopy (Src u' k) d' e true => if seqb u u' && seqb d d' then [(k, e)] else [] | _ => [] end) ntr).
    assert (I := inv_run _ _ _ _ _ _ (wired_wf g t Hd Hw) N).
    assert (Hfil : ~ In u (map fst (g_filters g))).
    { intros Hf. apply in_map_iff in Hf as ([u' fw] & Eu & Hf). cbn in Eu. subst u'. destruct (sender_kind g Hd u fw) as [[_ X]|[_ X]]; [unfold senders_of; apply in_or_app; auto|contradiction|]. apply X. exact (in_map fst _ _ Hf). }
    assert (E1 : filter is_data (arrived d ntr) = filter is_data (map snd items)).
    { assert (Hfrom : forall w e, In (LCopy w d e true) ntr -> (exists k, w = Src u k) \/ is_pulse e).
      { intros w e Hin. assert (Ha : In e (attempts w d ntr)) by (unfold attempts; apply in_flat_map; eexists; split; [exact Hin|]; cbn beta iota; rewrite weqb_refl, seqb_refl'; left; reflexivity).
        assert (Ln := i_link _ _ _ _ _ _ I w d). destruct (mem d (sends_of t w)) eqn:Em; [|apply app_eq_nil in Ln as [Ln _]; rewrite Ln in Ha; destruct Ha].
        assert (Hs' : In e (said proc st0 t ntr w)) by (rewrite <- Ln; apply in_or_app; auto).
        destruct (sends_upstream g t Hd Hw w d Em) as [->|(u' & T & U)]; [right; exact (tim_said _ _ _ _ _ Hs')|].
        left. assert (u' = u) by (exact (Hs _ _ _ U Hu)). subst u'. destruct w as [i k|i|]; cbn in T; [subst i; eauto| |destruct T]. subst i. exfalso. apply Hfil. apply (filter_known g t Hd Hw) in Em. exact Em. }
      clear - Hfrom. subst items. induction ntr as [|l ntr IH]; [reflexivity|]. unfold arrived in *. cbn [flat_map]. rewrite map_app, !filter_app, IH by (intros w e Hin; apply Hfrom; right; exact Hin). f_equal.
      destruct l as [| | |w x e [|]| |]; try reflexivity; [|destruct w; reflexivity]. destruct (seqb d x) eqn:Ex; [|destruct w; try reflexivity; rewrite andb_false_r; reflexivity]. apply seqb_eq in Ex. subst x.
      destruct (Hfrom w e (or_introl eq_refl)) as [[k ->]|[i ->]]; [rewrite seqb_refl'; reflexivity|]. destruct w as [i' k'| |]; try reflexivity. destruct (seqb u i' && true); reflexivity. }
  rewrite E1, <- A. f_equal.
  assert (Hz : forall k, 1 <= k -> arrived_from (Src u k) d ntr = []) by (intros k Hk; rewrite A; apply HK; exact Hk). clear - Hz. subst items. induction ntr as [|l ntr IH]; [reflexivity|]. unfold arrived_from in *. cbn [flat_map] in *. rewrite map_app.
  rewrite IH by (intros k Hk; specialize (Hz k Hk); apply app_eq_nil in Hz; apply Hz). f_equal. destruct l as [| | |w x e [|]| |]; try reflexivity; [|destruct w; reflexivity].
  destruct w as [i k'|i|]; cbn [weqb] in *; try reflexivity. destruct (seqb u i) eqn:E2, (seqb d x) eqn:E3; cbn [andb] in *; rewrite ?andb_false_r, ?andb_true_r; try reflexivity. destruct k' as [|k']; [reflexivity|].
  specialize (Hz (Datatypes.S k') ltac:(lia)). rewrite Nat.eqb_refl in Hz. discriminate Hz.
Qed.
Lemma all_threads (S : Type) proc (st0 : string -> S) fint g t ntr s u d K : distinct_ids g -> wire g = Going t -> nrun proc st0 fint t ntr s -> single_upstreams g ->
  upstream g u d -> In u (map fst (g_natives g ++ g_sources g)) -> (forall k, arrived_from (Src u k) d ntr = emitted u k ntr) -> (forall k, K <= k -> emitted u k ntr = []) ->
  Permutation (filter is_data (arrived d ntr)) (filter is_data (flat_map (fun k => emitted u k ntr) (seq 0 K))).
Proof.
  intros Hd Hw N Hs Hu Hi A HK. set (sent := flat_map (fun k => emitted u k ntr) (seq 0 K)). set (items := flat_map (fun l => match l with LCopy (Src u' k) d' e true => if seqb u u' && seqb d d' then [(k, e)] else [] | _ => [] end) ntr).
    assert (I := inv_run _ _ _ _ _ _ (wired_wf g t Hd Hw) N).
    assert (Hfil : ~ In u (map fst (g_filters g))).
    { intros Hf. apply in_map_iff in Hf as ([u' fw] & Eu & Hf). cbn in Eu. subst u'. destruct (sender_kind g Hd u fw) as [[_ X]|[_ X]]; [unfold senders_of; apply in_or_app; auto|contradiction|]. apply X. exact (in_map fst _ _ Hf). }
    assert (E1 : filter is_data (arrived d ntr) = filter is_data (map snd items)).
    { assert (Hfrom : forall w e, In (LCopy w d e true) ntr -> (exists k, w = Src u k) \/ is_pulse e).
      { intros w e Hin. assert (Ha : In e (attempts w d ntr)) by (unfold attempts; apply in_flat_map; eexists; split; [exact Hin|]; cbn beta iota; rewrite weqb_refl, seqb_refl'; left; reflexivity).
        assert (Ln := i_link _ _ _ _ _ _ I w d). destruct (mem d (sends_of t w)) eqn:Em; [|apply app_eq_nil in Ln as [Ln _]; rewrite Ln in Ha; destruct Ha].
        assert (Hs' : In e (said proc st0 t ntr w)) by (rewrite <- Ln; apply in_or_app; auto).
        destruct (sends_upstream g t Hd Hw w d Em) as [->|(u' & T & U)]; [right; exact (tim_said _ _ _ _ _ Hs')|].
        left. assert (u' = u) by (exact (Hs _ _ _ U Hu)). subst u'. destruct w as [i k|i|]; cbn in T; [subst i; eauto| |destruct T]. subst i. exfalso. apply Hfil. apply (filter_known g t Hd Hw) in Em. exact Em. }
      clear - Hfrom. subst items. induction ntr as [|l ntr IH]; [reflexivity|]. unfold arrived in *. cbn [flat_map]. rewrite map_app, !filter_app, IH by (intros w e Hin; apply Hfrom; right; exact Hin). f_equal.
      destruct l as [| | |w x e [|]| |]; try reflexivity; [|destruct w; reflexivity]. destruct (seqb d x) eqn:Ex; [|destruct w; try reflexivity; rewrite andb_false_r; reflexivity]. apply seqb_eq in Ex. subst x.
      destruct (Hfrom w e (or_introl eq_refl)) as [[k ->]|[i ->]]; [rewrite seqb_refl'; reflexivity|]. destruct w as [i' k'| |]; try reflexivity. destruct (seqb u i' && true); reflexivity. }
    rewrite E1. apply filter_perm. unfold sent. rewrite (by_thread items K).
    - replace (flat_map (fun k => map snd (filter (fun x => fst x =? k) items)) (seq 0 K)) with (flat_map (fun k => emitted u k ntr) (seq 0 K)); [reflexivity|]. apply flat_map_ext. intros k. rewrite <- A. unfold items, arrived_from. clear.
      induction ntr as [|l ntr IH]; [reflexivity|]. cbn [flat_map]. rewrite filter_app, map_app, <- IH. f_equal. destruct l as [| | |w x e [|]| |]; try reflexivity; [|destruct w; reflexivity].
      destruct w as [i k'|i|]; cbn [weqb]; try reflexivity. destruct (seqb u i), (seqb d x); cbn [andb]; rewrite ?andb_false_r, ?andb_true_r; try reflexivity. cbn [filter fst map snd]. rewrite (Nat.eqb_sym k k'). destruct (k' =? k); reflexivity.
    - intros [k e] Hx. cbn [fst]. destruct (Nat.lt_ge_cases k K) as [H|H]; [exact H|exfalso]. specialize (HK k H). rewrite <- A in HK. unfold items in Hx. apply in_flat_map in Hx as (l & Hl & Hx). destruct l as [| | |w x e' [|]| |]; try destruct Hx; [|destruct w; destruct Hx].
      destruct w as [i k'|i|]; try destruct Hx. destruct (seqb u i) eqn:E2; [|destruct Hx]. destruct (seqb d x) eqn:E3; [|destruct Hx]. destruct Hx as [[= -> ->]|[]].
      assert (X : In e (arrived_from (Src u k) d ntr)) by (unfold arrived_from; apply in_flat_map; eexists; split; [exact Hl|]; cbn [weqb]; rewrite E2, E3, Nat.eqb_refl; left; reflexivity). rewrite HK in X. destruct X.
Qed.
End Lemmas.

(** A sink that has stopped has given the server exactly what was delivered to it. *)
Theorem C163_at_stop : forall (Q : QLib) (S : Type) proc (st0 : string -> S) fint g t tr s d, distinct_ids g -> wire g = Going t -> nrun proc st0 fint t tr s ->
  In d (g_sinks g) -> sr_stopped (n_sink s d) = true ->
  forall show_f show_n tags, shows show_f -> influx_gave show_f show_n tags (sr_calls (n_sink s d)) (points_among (FlowSpec.delivered (sr_calls (n_sink s d)))).
Proof.
  intros Q S proc st0 fint g t tr s d Hd Hw R Hk Hs show_f show_n tags Hsh. destruct (stopped_calls proc st0 fint g t Hd Hw tr s d R Hk Hs) as (cs & ->).
  replace (FlowSpec.delivered (cs ++ [CShutdown])) with (FlowSpec.delivered cs) by (unfold FlowSpec.delivered; rewrite flat_map_app; symmetry; apply app_nil_r). apply influx_ended; [exact Hsh|reflexivity].
Qed.
(** When main has returned, no queue having been full: exactly the points the thread of the source before it sent, in their order. *)
Theorem C163_exit : forall (Q : QLib) (S : Type) proc (st0 : string -> S) fint g t so ko fo tr p,
  distinct_ids g -> wire g = Going t -> main_holds g so ko fo -> prun proc st0 fint t (chores so ko fo) tr p -> returned p ->
  quiet proc st0 -> single_upstreams g -> no_drops (net_trace tr) ->
  forall u d, upstream g u d -> In d (g_sinks g) -> In u (map fst (g_natives g ++ g_sources g)) -> (forall k, 1 <= k -> emitted u k (net_trace tr) = []) ->
  forall show_f show_n tags, shows show_f ->
  influx_gave show_f show_n tags (sr_calls (n_sink (p_net p) d)) (points_among (emitted u 0 (net_trace tr))).
Proof.
  intros Q S proc st0 fint g t so ko fo tr p Hd Hw M R E Hq Hs Hn u d Hu Hk Hi H0 show_f show_n tags Hsh.
  assert (N := pi_net _ _ _ _ _ _ _ (run_inv _ _ _ _ _ _ _ R)).
  assert (St : sr_stopped (n_sink (p_net p) d) = true).
  { apply (C132_exit Q S proc st0 fint g t so ko fo tr p M R E (TSink d)). unfold threads. apply in_or_app. right. apply in_or_app. left. apply in_map. exact Hk. }
  destruct (C132_exit_delivered_partial Q S proc st0 fint g t so ko fo tr p Hd Hw M R E Hq Hs Hn u d Hu Hk) as (D & A & _). specialize (A Hi).
  assert (X := C163_at_stop Q S proc st0 fint g t _ _ d Hd Hw N Hk St show_f show_n tags Hsh). rewrite D in X. rewrite (one_thread S proc st0 fint g t _ _ u d Hd Hw N Hs Hu Hi A H0), points_data in X. exact X.
Qed.
(** So for sources of many threads, in some order. *)
Theorem C163_threads : forall (Q : QLib) (S : Type) proc (st0 : string -> S) fint g t so ko fo tr p,
  distinct_ids g -> wire g = Going t -> main_holds g so ko fo -> prun proc st0 fint t (chores so ko fo) tr p -> returned p ->
  quiet proc st0 -> single_upstreams g -> no_drops (net_trace tr) ->
  forall u d K, upstream g u d -> In d (g_sinks g) -> In u (map fst (g_natives g ++ g_sources g)) -> (forall k, K <= k -> emitted u k (net_trace tr) = []) ->
  forall show_f show_n tags, shows show_f ->
  exists ts, Permutation ts (points_among (flat_map (fun k => emitted u k (net_trace tr)) (seq 0 K))) /\ influx_gave show_f show_n tags (sr_calls (n_sink (p_net p) d)) ts.
Proof.
  intros Q S proc st0 fint g t so ko fo tr p Hd Hw M R E Hq Hs Hn u d K Hu Hk Hi H0 show_f show_n tags Hsh.
  assert (N := pi_net _ _ _ _ _ _ _ (run_inv _ _ _ _ _ _ _ R)).
  assert (St : sr_stopped (n_sink (p_net p) d) = true).
  { apply (C132_exit Q S proc st0 fint g t so ko fo tr p M R E (TSink d)). unfold threads. apply in_or_app. right. apply in_or_app. left. apply in_map. exact Hk. }
  destruct (C132_exit_delivered_partial Q S proc st0 fint g t so ko fo tr p Hd Hw M R E Hq Hs Hn u d Hu Hk) as (D & A & _). specialize (A Hi).
  exists (points_among (FlowSpec.delivered (sr_calls (n_sink (p_net p) d)))). split; [|exact (C163_at_stop Q S proc st0 fint g t _ _ d Hd Hw N Hk St show_f show_n tags Hsh)].
  rewrite D, <- (points_data (flat_map _ _)). apply points_perm. exact (all_threads S proc st0 fint g t _ _ u d K Hd Hw N Hs Hu Hi A H0).
Qed.
(** The counts clients wrote to a statsd source under a name are each in exactly one accepted request, in the order they came, and nothing else of that name. *)
Theorem C163_statsd : forall (Q : QLib) (S : Type) proc (st0 : string -> S) fint g t so ko fo tr p,
  distinct_ids g -> wire g = Going t -> main_holds g so ko fo -> prun proc st0 fint t (chores so ko fo) tr p -> returned p ->
  quiet proc st0 -> single_upstreams g -> no_drops (net_trace tr) ->
  forall named cfg now base queues ms us, (N.of_nat (List.length queues) < 2048)%N -> cfg_ok cfg -> udp_run (parse_f64 named) cfg now base ms (udp_start queues) = Some us ->
  forall u d, upstream g u d -> In d (g_sinks g) -> In u (map fst (g_natives g ++ g_sources g)) ->
  emitted u 0 (net_trace tr) = ud_sent us -> (forall k, 1 <= k -> emitted u k (net_trace tr) = []) ->
  forall name os, Forall2 (heard_as (parse_f64 named) name) (DatagramSpec.texts (List.concat (ud_calls us))) os ->
  forall show_f show_n tags, shows show_f ->
  exists ts, influx_gave show_f show_n tags (sr_calls (n_sink (p_net p) d)) ts /\
    Forall2 (fun l t => counts_as t (cl_count l)) (those (List.concat os)) (filter (of_series (name :: flat_tags (t_tags base))) ts).
Proof.
  intros Q S proc st0 fint g t so ko fo tr p Hd Hw M R E Hq Hs Hn named cfg now base queues ms us Hql Hcf Eu u d Hu Hk Hi Hem H0 name os Hh show_f show_n tags Hsh.
  destruct (C117_sends_what_it_parses Q (parse_f64 named) cfg now base queues ms us Hql Hcf Eu) as (sent & g1 & b1 & H1 & H2 & _).
  assert (F := calls_counts named cfg now base name Hcf _ _ Hh _ _ _ H1).
  assert (Ps : points_among (emitted u 0 (net_trace tr)) = sent).
  { rewrite Hem, H2. unfold points_among. rewrite flat_map_app. clear. replace (flat_map _ (match ud_phase us with UEnd => [EShutdown] | _ => [] end)) with (@nil telemetry) by (destruct (ud_phase us); reflexivity).
    rewrite app_nil_r. induction sent as [|a l IH]; [reflexivity|]. cbn. f_equal. exact IH. }
  exists sent. split; [rewrite <- Ps; apply (C163_exit Q S proc st0 fint g t so ko fo tr p); assumption|]. clear - F. induction F as [|? ? ? ? [_ H] _ IH]; constructor; assumption.
Qed.
(** The execution, the datagrams and the source of [C161_ex] meet the hypotheses; the sink, called as there with the shutdown last, has its
    requests refused twice and then taken: three requests of the same three lines. *)
Definition c163_calls : list (@sink_call xQ) := [CDeliver (c161_p "a" 3); CDeliver (c161_p "b" 7); CDeliver (c161_p "a" (-1)); CShutdown].
Definition c163_t (n : string) (z : Z) : @telemetry xQ := pt n (VSum (fofZ z)) false None 7.
Definition c163_os : list (@iop xQ) := [IDeliver (c163_t "a" 3); IDeliver (c163_t "b" 7); IDeliver (c163_t "a" (-1)); IFlush [IError; IStatus 503; IStatus 204]].
Example C163_ex : does_all influx_does c163_calls c163_os /\ shows (fun _ => "1") /\
  option_map snd (i_run (fun _ => "1") (fun _ => "7") [] c163_os influx_init (mkICounts 0 0 0 0)) =
    Some (let text := ("a value=1 7" ++ nl ++ "b value=1 7" ++ nl ++ "a value=1 7" ++ nl)%string in [[(text, 0%N); (text, 0%N); (text, 1%N)]]).
Proof.
  split; [|split; [intros x y _; reflexivity|lazy; reflexivity]].
  exists [[IDeliver (c163_t "a" 3)]; [IDeliver (c163_t "b" 7)]; [IDeliver (c163_t "a" (-1))]; [IFlush [IError; IStatus 503; IStatus 204]]]. split; [|reflexivity].
  repeat (constructor; [cbn; eauto|]). constructor.
Qed.
Print Assumptions C163_at_stop.
Print Assumptions C163_exit.
Print Assumptions C163_threads.
Print Assumptions C163_statsd.
