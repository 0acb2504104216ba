(** * C160: when the process has ended, wavefront was told of every count its sources sent. *)
From Verif Require Import Base BaseFacts FloatFacts TelemetryModel TelemetrySpec QExample TelemetryProps BucketsModel BucketsSpec ConsoleModel ConsoleSpec ConsoleProofs FlowModel FlowSpec FlowProofs FlowProps
  TopologyModel TopologySpec TopologyProofs TopologyProps NetworkModel NetworkSpec NetworkProofs NetworkProps MainModel MainSpec MainProofs MainProps ShownSpec ShownProofs
  WavefrontModel WavefrontSpec WavefrontProofs WavefrontProps ArriveSpec ArriveProofs ArriveProps CountSpec CountProps ConserveSpec ConserveProofs ConserveProps.
From Coq Require Import Lia Permutation.
Open Scope string_scope. Open Scope list_scope. Open Scope nat_scope.

(** the points among events *)
Definition points_among `{Q : QLib} (es : list event) : list telemetry := flat_map (fun e => match e with ETelemetry t => [t] | _ => [] end) es.
(** the counts of a series among events, in all *)
Definition sent_in_all `{Q : QLib} (n : telemetry -> Z) (s : list string) (es : list event) : Z := CountSpec.total (map n (filter (of_series s) (points_among es))).
(** whole counts, none to persist, with room to add them up *)
Definition whole_counts `{Q : QLib} (n : telemetry -> Z) (s : list string) (es : list event) : Prop :=
  (forall t, In t (points_among es) -> series_key t = s -> t_persist t = false /\ counts_as t (n t)) /\ countable (map n (filter (of_series s) (points_among es))).
(** A sink running the calls [cs] to their end wrote, over all flushes, sums of the series that make [z]. *)
Definition wave_totals `{Q : QLib} hkind hfun show_f show_n show_z (c : wcfg) (cs : list sink_call) (s : list string) (z : Z) : Prop :=
  forall os stream w logs, does_all wave_does cs os -> no_collision hfun (wave_points os) ->
  w_run hkind hfun show_f show_n show_z c os (wave_init c stream) = Some (w, logs) ->
  exists written, Forall2 (fun points log => WavefrontSpec.flushed (texts (map (point_text show_f show_n show_z (wc_tags c) (wc_percentiles c)) points)) log) written logs /\
    exists zs, Forall2 counts_as (filter (of_series s) (List.concat written)) zs /\ countable zs /\ CountSpec.total zs = z.

Section Lemmas.
Context `{Q : QLib}.
Lemma does_points cs : forall os, does_all wave_does cs os -> wave_points os = points_among (FlowSpec.delivered cs).
Proof.
  induction cs as [|c cs IH]; intros os D; [destruct D as (ps & F & ->); inversion F; reflexivity|]. apply does_cons in D as (o1 & o2 & D1 & D2 & ->).
  unfold wave_points, points_among, FlowSpec.delivered in *. cbn [flat_map]. rewrite !flat_map_app, (IH _ D2). f_equal. destruct c as [e| | |]; cbn in D1; [|destruct D1 as (f & a & b & ans & ->); reflexivity..].
  destruct e; try (subst o1; reflexivity). destruct D1 as (now & ->). reflexivity.
Qed.
Lemma points_data es : points_among (filter is_data es) = points_among es.
Proof. induction es as [|e es IH]; [reflexivity|]. cbn [filter]. destruct e; cbn [is_data points_among flat_map]; fold (points_among es); try (fold (points_among (filter is_data es)); rewrite IH; reflexivity); exact IH. Qed.
Lemma total_perm a b : Permutation a b -> CountSpec.total a = CountSpec.total b.
Proof. induction 1; cbn; unfold CountSpec.total in *; lia. Qed.
Lemma points_perm a b : Permutation a b -> Permutation (points_among a) (points_among b).
Proof. apply Permutation_flat_map. Qed.
Lemma filter_perm {A} (f : A -> bool) a b : Permutation a b -> Permutation (filter f a) (filter f b).
Proof. induction 1 as [|x a b _ IH|x y a|a b c _ IH1 _ IH2]; cbn; [constructor|destruct (f x); [constructor|]; exact IH|destruct (f x), (f y); try reflexivity; apply perm_swap|etransitivity; eassumption]. Qed.
Lemma sent_perm n s a b : Permutation a b -> sent_in_all n s a = sent_in_all n s b /\ (whole_counts n s a -> whole_counts n s b).
Proof.
  intros P. apply points_perm in P. assert (P' := Permutation_map n (filter_perm (of_series s) _ _ P)). split; [apply total_perm; exact P'|].
  intros [H1 H2]. split; [intros t Ht; apply H1; apply (Permutation_in _ (Permutation_sym P) Ht)|]. unfold countable in *. rewrite <- (total_perm _ _ (Permutation_map Z.abs P')). exact H2.
Qed.
Lemma by_thread {A} (l : list (nat * A)) K : (forall x, In x l -> fst x < K) -> Permutation (map snd l) (flat_map (fun k => map snd (filter (fun x => fst x =? k) l)) (seq 0 K)).
Proof.
  induction l as [|[k a] l IH]; intros H.
  - replace (flat_map _ (seq 0 K)) with (@nil A); [constructor|]. induction (seq 0 K) as [|j js IHj]; [reflexivity|exact IHj].
  - assert (Hk : k < K) by (apply (H (k, a)); left; reflexivity). specialize (IH (fun x Hx => H x (or_intror Hx))).
    assert (E : seq 0 K = seq 0 k ++ k :: seq (Datatypes.S k) (K - Datatypes.S k)).
    { replace K with (k + Datatypes.S (K - Datatypes.S k)) at 1 by lia. rewrite seq_app. reflexivity. }
    rewrite E in *. rewrite flat_map_app in *. cbn [flat_map map filter fst snd] in *. rewrite Nat.eqb_refl.
    assert (S1 : forall js, ~ In k js -> flat_map (fun k0 => map snd (if k =? k0 then (k, a) :: filter (fun x => fst x =? k0) l else filter (fun x => fst x =? k0) l)) js = flat_map (fun k0 => map snd (filter (fun x => fst x =? k0) l)) js).
    { induction js as [|j js IHj]; intros Hj; [reflexivity|]. cbn [flat_map]. rewrite IHj by (intros X; apply Hj; right; exact X). destruct (Nat.eqb_spec k j) as [->|]; [exfalso; apply Hj; left; reflexivity|reflexivity]. }
    rewrite !S1 by (rewrite in_seq; lia). cbn [map app snd]. apply Permutation_cons_app. exact IH.
Qed.
End Lemmas.

(** A sink that has stopped has written all the counts delivered to it. *)
Theorem C160_at_stop : forall (Q : QLib) (S : Type) proc (st0 : string -> S) fint g t tr s d, distinct_ids g -> wire g = Going t -> nrun proc st0 fint t tr s ->
  In d (g_sinks g) -> sr_stopped (n_sink s d) = true ->
  forall hkind hfun show_f show_n show_z c n ser, (forall a b, feqb a b = true -> show_f a = show_f b) -> (0 < wc_span c)%Z -> wc_age c = None ->
  whole_counts n ser (FlowSpec.delivered (sr_calls (n_sink s d))) ->
  wave_totals hkind hfun show_f show_n show_z c (sr_calls (n_sink s d)) ser (sent_in_all n ser (FlowSpec.delivered (sr_calls (n_sink s d)))).
Proof.
  intros Q S proc st0 fint g t tr s d Hd Hw R Hk Hs hkind hfun show_f show_n show_z c n ser Hsame Hspan Hage [W1 W2] os stream w logs D Hn Hr.
  destruct (stopped_calls proc st0 fint g t Hd Hw tr s d R Hk Hs) as (cs & E). pose proof (does_points _ _ D) as Ep. rewrite E in D. apply does_app in D as (o1 & o2 & D1 & D2 & ->). apply does_cons in D2 as (o3 & o4 & D3 & D4 & ->).
  destruct D4 as (ps & F & ->). inversion F; subst. cbn in D3. destruct D3 as (fuel & now & now' & ans & ->). cbn [List.concat app] in *.
  assert (E1 : wave_points (o1 ++ [WFlush fuel now now' ans]) = wave_points o1) by (unfold wave_points; rewrite flat_map_app; apply app_nil_r). rewrite E1 in *. unfold sent_in_all. rewrite <- Ep in *.
  destruct (C159_written Q hkind hfun show_f show_n show_z c n ser o1 fuel now now' ans stream w logs Hsame Hspan Hage Hn W1 W2 Hr) as (written & Fw & zs & Z1 & Z2 & Z3 & _). exists written. split; [exact Fw|]. exists zs. auto.
Qed.

(** When main has returned, no queue having been full: all the counts that the
    threads of the source before the sink sent. *)
Theorem C160_exit : forall (Q : QLib) (S : Type) proc (st0 : string -> S) fint g t so ko fo tr p,
  distinct_ids g -> wire g = Going t -> main_holds g so ko fo -> prun proc st0 fint t (chores so ko fo) tr p -> returned p ->
  quiet proc st0 -> single_upstreams g -> no_drops (net_trace tr) ->
  forall u d K, upstream g u d -> In d (g_sinks g) -> In u (map fst (g_natives g ++ g_sources g)) -> (forall k, K <= k -> emitted u k (net_trace tr) = []) ->
  forall hkind hfun show_f show_n show_z c n ser, (forall a b, feqb a b = true -> show_f a = show_f b) -> (0 < wc_span c)%Z -> wc_age c = None ->
  let sent := flat_map (fun k => emitted u k (net_trace tr)) (seq 0 K) in
  whole_counts n ser sent -> wave_totals hkind hfun show_f show_n show_z c (sr_calls (n_sink (p_net p) d)) ser (sent_in_all n ser sent).
Proof.
  intros Q S proc st0 fint g t so ko fo tr p Hd Hw M R E Hq Hs Hn u d K Hu Hk Hi HK hkind hfun show_f show_n show_z c n ser Hsame Hspan Hage sent W.
  assert (N := pi_net _ _ _ _ _ _ _ (run_inv _ _ _ _ _ _ _ R)).
  assert (St : sr_stopped (n_sink (p_net p) d) = true).
  { apply (C132_exit Q S proc st0 fint g t so ko fo tr p M R E (TSink d)). unfold threads. apply in_or_app. right. apply in_or_app. left. apply in_map. exact Hk. }
  destruct (C132_exit_delivered_partial Q S proc st0 fint g t so ko fo tr p Hd Hw M R E Hq Hs Hn u d Hu Hk) as (D & A & _). specialize (A Hi). set (ntr := net_trace tr) in *.
  assert (P : Permutation (FlowSpec.delivered (sr_calls (n_sink (p_net p) d))) (filter is_data sent)).
  { rewrite D. set (items := flat_map (fun l => match l with LCopy (Src u' k) d' e true => if seqb u u' && seqb d d' then [(k, e)] else [] | _ => [] end) ntr).
    assert (I := inv_run _ _ _ _ _ _ (wired_wf g t Hd Hw) N).
    assert (Hfil : ~ In u (map fst (g_filters g))).
    { intros Hf. apply in_map_iff in Hf as ([u' fw] & Eu & Hf). cbn in Eu. subst u'. destruct (sender_kind g Hd u fw) as [[_ X]|[_ X]]; [unfold senders_of; apply in_or_app; auto|contradiction|]. apply X. exact (in_map fst _ _ Hf). }
    assert (E1 : filter is_data (arrived d ntr) = filter is_data (map snd items)).
    { assert (Hfrom : forall w e, In (LCopy w d e true) ntr -> (exists k, w = Src u k) \/ is_pulse e).
      { intros w e Hin. assert (Ha : In e (attempts w d ntr)) by (unfold attempts; apply in_flat_map; eexists; split; [exact Hin|]; cbn beta iota; rewrite weqb_refl, seqb_refl'; left; reflexivity).
        assert (Ln := i_link _ _ _ _ _ _ I w d). destruct (mem d (sends_of t w)) eqn:Em; [|apply app_eq_nil in Ln as [Ln _]; rewrite Ln in Ha; destruct Ha].
        assert (Hs' : In e (said proc st0 t ntr w)) by (rewrite <- Ln; apply in_or_app; auto).
        destruct (sends_upstream g t Hd Hw w d Em) as [->|(u' & T & U)]; [right; exact (tim_said _ _ _ _ _ Hs')|].
        left. assert (u' = u) by (exact (Hs _ _ _ U Hu)). subst u'. destruct w as [i k|i|]; cbn in T; [subst i; eauto| |destruct T]. subst i. exfalso. apply Hfil. apply (filter_known g t Hd Hw) in Em. exact Em. }
      clear - Hfrom. subst items. induction ntr as [|l ntr IH]; [reflexivity|]. unfold arrived in *. cbn [flat_map]. rewrite map_app, !filter_app, IH by (intros w e Hin; apply Hfrom; right; exact Hin). f_equal.
      destruct l as [| | |w x e [|]| |]; try reflexivity; [|destruct w; reflexivity]. destruct (seqb d x) eqn:Ex; [|destruct w; try reflexivity; rewrite andb_false_r; reflexivity]. apply seqb_eq in Ex. subst x.
      destruct (Hfrom w e (or_introl eq_refl)) as [[k ->]|[i ->]]; [rewrite seqb_refl'; reflexivity|]. destruct w as [i' k'| |]; try reflexivity. destruct (seqb u i' && true); reflexivity. }
    rewrite E1. apply filter_perm. unfold sent. rewrite (by_thread items K).
    - replace (flat_map (fun k => map snd (filter (fun x => fst x =? k) items)) (seq 0 K)) with (flat_map (fun k => emitted u k ntr) (seq 0 K)); [reflexivity|]. apply flat_map_ext. intros k. rewrite <- A. unfold items, arrived_from. clear.
      induction ntr as [|l ntr IH]; [reflexivity|]. cbn [flat_map]. rewrite filter_app, map_app, <- IH. f_equal. destruct l as [| | |w x e [|]| |]; try reflexivity; [|destruct w; reflexivity].
      destruct w as [i k'|i|]; cbn [weqb]; try reflexivity. destruct (seqb u i), (seqb d x); cbn [andb]; rewrite ?andb_false_r, ?andb_true_r; try reflexivity. cbn [filter fst map snd]. rewrite (Nat.eqb_sym k k'). destruct (k' =? k); reflexivity.
    - intros [k e] Hx. cbn [fst]. destruct (Nat.lt_ge_cases k K) as [H|H]; [exact H|exfalso]. specialize (HK k H). rewrite <- A in HK. unfold items in Hx. apply in_flat_map in Hx as (l & Hl & Hx). destruct l as [| | |w x e' [|]| |]; try destruct Hx; [|destruct w; destruct Hx].
      destruct w as [i k'|i|]; try destruct Hx. destruct (seqb u i) eqn:E2; [|destruct Hx]. destruct (seqb d x) eqn:E3; [|destruct Hx]. destruct Hx as [[= -> ->]|[]].
      assert (X : In e (arrived_from (Src u k) d ntr)) by (unfold arrived_from; apply in_flat_map; eexists; split; [exact Hl|]; cbn [weqb]; rewrite E2, E3, Nat.eqb_refl; left; reflexivity). rewrite HK in X. destruct X. }
  assert (P2 : Permutation (points_among sent) (points_among (FlowSpec.delivered (sr_calls (n_sink (p_net p) d))))) by (rewrite <- (points_data sent); apply points_perm, Permutation_sym, P).
  assert (Wd : whole_counts n ser (filter is_data sent)) by (unfold whole_counts in *; rewrite points_data; exact W).
  destruct (sent_perm n ser _ _ (Permutation_sym P)) as [E1 E2]. assert (E3 : sent_in_all n ser sent = sent_in_all n ser (filter is_data sent)) by (unfold sent_in_all; rewrite points_data; reflexivity). rewrite E3, E1.
  exact (C160_at_stop Q S proc st0 fint g t ntr (p_net p) d Hd Hw N Hk St hkind hfun show_f show_n show_z c n ser Hsame Hspan Hage (E2 Wd)).
Qed.

(** two threads of a source send counts of 3 and 4; a flush of the timer between them; then the signal *)
Definition c160_g : config := mkConfig ["sinks.w"] [] [] [("sources.a", ["sinks.w"])].
Definition c160_t : started := mkStarted [("sinks.w", ["sources.a"])] [] [("sources.a", ["sinks.w"])] ["sinks.w"].
Definition c160_p (z : Z) : @event xQ := ETelemetry (pt "a" (VSum (fofZ z)) false None 5).
Definition c160_n (t : @telemetry xQ) : Z := match t_value t with VSum x => whole_of x | _ => 0%Z end.
Definition c160_trace : list (@label xQ) :=
  [LEmit "sources.a" 1 (c160_p 3); LCopy (Src "sources.a" 1) "sinks.w" (c160_p 3) true; LPulse; LCopy Tim "sinks.w" (ETimerFlush 1) true;
   LEmit "sources.a" 0 (c160_p 4); LCopy (Src "sources.a" 0) "sinks.w" (c160_p 4) true; LPoll "sinks.w" (c160_p 3); LValve "sinks.w" true; LPoll "sinks.w" (ETimerFlush 1); LValve "sinks.w" true;
   LPoll "sinks.w" (c160_p 4); LValve "sinks.w" true; LStop "sources.a"; LCopy (Src "sources.a" 0) "sinks.w" EShutdown true; LPoll "sinks.w" EShutdown; LValve "sinks.w" true].
Example C160_ex : distinct_ids c160_g /\ wire c160_g = Going c160_t /\ main_holds c160_g ["sources.a"] ["sinks.w"] [] /\ single_upstreams c160_g /\
  exists tr p, prun xpass_proc xone (fun _ => Some 1%N) c160_t (chores ["sources.a"] ["sinks.w"] []) tr p /\ returned p /\ no_drops (net_trace tr) /\
    sr_calls (n_sink (p_net p) "sinks.w") = [CDeliver (c160_p 3); CFlushTimer 1; CDeliver (c160_p 4); CShutdown] /\
    emitted "sources.a" 1 (net_trace tr) = [c160_p 3] /\ (forall k, 2 <= k -> emitted "sources.a" k (net_trace tr) = []) /\
    whole_counts c160_n ["a"] (flat_map (fun k => emitted "sources.a" k (net_trace tr)) (seq 0 2)).
Proof.
  split; [unfold distinct_ids; cbn; repeat (constructor; [cbn; intuition discriminate|]); constructor|]. split; [reflexivity|].
  split; [unfold main_holds, lists; cbn; split; [|split]; (split; [repeat (constructor; [cbn; intuition discriminate|]); constructor|tauto])|].
  split; [intros u u' v (fw & H & Hi) (fw' & H' & Hi'); cbn in H, H'; destruct H as [[= <- <-]|[]]; destruct H' as [[= <- <-]|[]]; reflexivity|].
  assert (R := NetworkModel.run_start xpass_proc xone (fun _ => Some 1%N) c160_t).
  let ls := eval unfold c160_trace in c160_trace in net_all ls. cbn [app] in R. fold c160_trace in R.
  assert (R0 := prun_start xpass_proc xone (fun _ => Some 1%N) c160_t (chores ["sources.a"] ["sinks.w"] [])).
  eapply prun_step in R0; [|apply p_signal; reflexivity]. eapply prun_step in R0; [|apply p_tell; reflexivity]. cbn [app] in R0.
  eapply (lift xpass_proc xone (fun _ => Some 1%N) c160_t (chores ["sources.a"] ["sinks.w"] []) _ _ R0 Logic.eq_refl) with (tr := c160_trace) in R; [|split; discriminate|reflexivity|].
  2:{ intros id Hin. unfold c160_trace in Hin. repeat (destruct Hin as [Hin|Hin]; [first [discriminate Hin|injection Hin as <-; reflexivity]|]). destruct Hin. }
  eapply prun_step in R; [|eapply p_join; [reflexivity|split; reflexivity|reflexivity]].
  eapply prun_step in R; [|eapply p_join; [reflexivity|reflexivity|reflexivity]].
  rewrite <- !app_assoc in R. cbn [app] in R.
  match type of R with MainModel.prun _ _ _ _ _ ?tr ?p => exists tr, p end. split; [exact R|]. clear R R0. split; [reflexivity|].
  assert (N : net_trace ([PSignal; PTell "sources.a"] ++ map PNet c160_trace ++ [PJoin (TSource "sources.a"); PJoin (TSink "sinks.w")]) = c160_trace) by reflexivity. cbn [app] in N.
  rewrite N. split; [intros u d e H; unfold c160_trace in H; repeat (destruct H as [H|H]; [discriminate H|]); exact H|]. split; [reflexivity|]. split; [reflexivity|].
  split; [intros k Hk; destruct k as [|[|k]]; [lia..|reflexivity]|]. split; [|].
  - intros t Ht _. assert (Ht' : In t [pt "a" (VSum (fofZ 4)) false None 5; pt "a" (VSum (fofZ 3)) false None 5]) by exact Ht. clear Ht. unfold counts_as, c160_n.
    destruct Ht' as [<-|[<-|[]]]; (split; [reflexivity|]); cbn [t_value pt]; rewrite whole_back by (vm_compute; discriminate); reflexivity.
  - replace (map c160_n _) with [4%Z; 3%Z]; [vm_compute; discriminate|]. symmetry. change (map c160_n [pt "a" (VSum (fofZ 4)) false None 5; pt "a" (VSum (fofZ 3)) false None 5] = [4%Z; 3%Z]).
    unfold c160_n. cbn [map t_value pt]. rewrite !whole_back by (vm_compute; discriminate). reflexivity.
Qed.
Print Assumptions C160_at_stop.
Print Assumptions C160_exit.
