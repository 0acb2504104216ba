(** * C142: what arrives at the native sink of one process is emitted by the native source of another. *)
From Verif Require Import Base BaseFacts TelemetryModel TelemetrySpec TelemetryProps QExample ProtoModel FramingModel FramingSpec NativeModel NativeSpec NativeProofs NativeProps FlowModel FlowSpec
  TopologyModel TopologySpec NetworkModel NetworkSpec LiveSpec PulseSpec PulseProofs MainModel MainSpec MainProofs MainProps ShownSpec ArriveSpec ArriveProps RelaySpec RelayProofs.
From Coq Require Import Lia.
Open Scope string_scope. Open Scope list_scope. Open Scope nat_scope.

(** Every point and line delivered to the sink and followed by a flush is emitted by the other process: as long as the
    connection holds, no flush finds the buffer empty and every batch is one the format can carry (C50). *)
Theorem C142_forwarded_partial : forall (Q : QLib) utf8 max tags cs bs, (N.of_nat max < 2 ^ 32)%N -> meta_ok utf8 tags ->
  rounds cs bs -> Forall (good_batch utf8 max tags) bs ->
  received utf8 max tags cs (List.concat bs) /\ forall e, taken e = true -> flushed_after e cs -> In e (List.concat bs).
Proof.
  intros Q utf8 max tags cs bs Hm Ht R G. split; [|apply rounds_in; exact R]. intros early cap now He Hc. eexists. intros left HL.
  destruct (rounds_sent early tags cs bs He R left HL) as (s & E & Es). exists s. split; [exact E|]. intros pieces Ep. rewrite Es in Ep.
  destruct (C50_native_pair_partial utf8 cap max now tags bs (map AData pieces) Hc Hm Ht G) as (evs & E1 & E2).
  - apply Forall_map. apply Forall_forall. intros x _. split; discriminate.
  - unfold bytes_of. rewrite map_map, map_id. exact Ep.
  - intros s1 s2 E'. exfalso. assert (Hin : In ABlock (map AData pieces)) by (rewrite E'; apply in_or_app; right; left; reflexivity). apply in_map_iff in Hin as (x & Hx & _). discriminate.
  - exists bs, evs. auto.
Qed.
(** The calls of any sink are such rounds, in one way only. *)
Theorem C142_rounds : forall (Q : QLib) cs, exists bs, rounds cs bs /\ forall bs', rounds cs bs' -> bs' = bs.
Proof.
  intros Q cs. destruct (rounds_exist cs) as (bs & R). exists bs. split; [exact R|]. induction R as [cs H|cs f r bs H Hf R IH]; intros bs' R'.
  - inversion R' as [|c0 f0 r0 b0 H0 Hf0 R0 E1 E2]; [reflexivity|subst]. exfalso. rewrite Forall_forall in H. specialize (H f0). rewrite H in Hf0; [discriminate|]. apply in_or_app. right. left. reflexivity.
  - inversion R' as [c0 H0 E1 E2|c0 f0 r0 b0 H0 Hf0 R0 E1 E2].
    + exfalso. subst c0. rewrite Forall_forall in H0. specialize (H0 f). rewrite H0 in Hf; [discriminate|]. apply in_or_app. right. left. reflexivity.
    + assert (c0 = cs /\ f0 = f /\ r0 = r) as (-> & -> & ->).
      { clear - E1 H H0 Hf Hf0. revert cs H E1. induction H0 as [|x c0 Hx H0 IH]; intros cs H E; destruct H as [|y cs Hy H]; cbn [app] in E; injection E as ? ?; subst; try congruence; [auto|].
        destruct (IH cs H) as (? & ? & ?); [assumption|]. subst. auto. }
      f_equal. apply IH. exact R0.
Qed.
(** A flush that finds the buffer empty ends it: the other process emits what came before it and nothing of what comes after. *)
Theorem C142_idle_flush : forall (Q : QLib) utf8 max tags cs bs later, (N.of_nat max < 2 ^ 32)%N -> meta_ok utf8 tags ->
  rounds cs (bs ++ [] :: later) -> Forall (good_batch utf8 max tags) bs -> received utf8 max tags cs (List.concat bs).
Proof.
  intros Q utf8 max tags cs bs later Hm Ht R G early cap now He Hc. eexists. intros left HL.
  destruct (rounds_sent early tags cs _ He R left HL) as (s & E & Es). exists s. split; [exact E|]. intros pieces Ep. rewrite Es, map_app, concat_app in Ep. cbn [map List.concat] in Ep.
  destruct (C71_idle_flush_refuted utf8 cap max now tags bs _ pieces Hc Hm Ht G Ep) as (evs & E1 & E2). exists bs, evs. auto.
Qed.
(** hence, of a process running its sink: the first timer finds nothing to send and the other process never sees the event *)
Theorem C142_refuted : exists (cs : list (@sink_call xQ)) e,
  sendable (Q := xQ) anyutf e /\ flushed_after e cs /\ received (Q := xQ) anyutf 200 [] cs [].
Proof.
  exists [CFlushTimer 1; CDeliver (ELog (mkLog 9 "f" "hello" [] None)); CFlushTimer 2], (ELog (mkLog 9 "f" "hello" [] None)). split; [|split].
  - split; [reflexivity|]. split; [reflexivity|]. split; [cbn; lia|]. split; exact Logic.I.
  - exists [CFlushTimer 1], [], (CFlushTimer 2), []. split; reflexivity.
  - apply (C142_idle_flush xQ anyutf 200 [] _ [] [[ELog (mkLog 9 "f" "hello" [] None)]]); [lia|repeat constructor| |constructor].
    apply (rounds_flush (Q := xQ) [] (CFlushTimer 1)); [constructor|reflexivity|]. apply (rounds_flush (Q := xQ) [CDeliver (ELog (mkLog 9 "f" "hello" [] None))] (CFlushTimer 2) []); [repeat constructor|reflexivity|]. constructor. constructor.
Qed.
(** When main of the first process returns, everything that arrived at the sink is emitted by the other. *)
Theorem C142_exit_partial : forall (Q : QLib) (S : Type) proc (st0 : string -> S) fint g t so ko fo tr p,
  distinct_ids g -> wire g = Going t -> main_holds g so ko fo -> prun proc st0 fint t (chores so ko fo) tr p -> returned p ->
  quiet proc st0 -> single_upstreams g -> no_drops (net_trace tr) ->
  forall utf8 max tags u d bs, (N.of_nat max < 2 ^ 32)%N -> meta_ok utf8 tags -> upstream g u d -> In d (g_sinks g) ->
  rounds (sr_calls (n_sink (p_net p) d)) bs -> Forall (good_batch utf8 max tags) bs ->
  received utf8 max tags (sr_calls (n_sink (p_net p) d)) (filter taken (arrived d (net_trace tr))).
Proof.
  intros Q S proc st0 fint g t so ko fo tr p Hd Hw M R E Hq Hs Hn utf8 max tags u d bs Hm Ht Hu Hk Hr G.
  destruct (C138_exit Q S proc st0 fint g t so ko fo tr p Hd Hw M R E Hq Hs Hn u d Hu Hk) as (cs & Ec & Ed).
  replace (filter taken (arrived d (net_trace tr))) with (List.concat bs); [apply C142_forwarded_partial; assumption|].
  rewrite (rounds_all _ bs Hr cs CShutdown Ec Logic.eq_refl), Ec, delivered_app, Ed. cbn [delivered flat_map]. rewrite app_nil_r.
  clear. induction (arrived d (net_trace tr)) as [|e es IH]; [reflexivity|]. destruct e; cbn [filter is_data taken]; rewrite IH; reflexivity.
Qed.
(** and while it runs, an event emitted by one of its sources is, later, emitted by the other process *)
Theorem C142_end_to_end_partial : forall (Q : QLib) (S : Type) proc (st0 : string -> S) fint g t x l, distinct_ids g -> wire g = Going t -> execution proc st0 fint t x l -> fair g x l -> timer_goes l -> all_kept l ->
  forall utf8 max tags id n i e via d k, (N.of_nat max < 2 ^ 32)%N -> meta_ok utf8 tags -> In id (map fst (g_natives g ++ g_sources g)) -> In e (emitted id n (before l i)) -> taken e = true ->
  way g id via d -> In d (g_sinks g) -> Forall (passes proc e) via -> handed proc st0 g d -> fint d = Some k ->
  exists j, i <= j /\ ((exists v, In v (via ++ [d]) /\ halted g (x j) v) \/ (2 ^ 64 <= N.max 1 k * (N.of_nat (pulses (before l j)) + 1))%N \/
    forall bs, rounds (sr_calls (n_sink (x j) d)) bs -> Forall (good_batch utf8 max tags) bs ->
      exists es, In e es /\ received utf8 max tags (sr_calls (n_sink (x j) d)) es).
Proof.
  intros Q S proc st0 fint g t x l Hd Hw Hx F T K utf8 max tags id n i e via d k Hm Ht Hid He Hta Hwy Hk Hp Hh Hfi.
  destruct (C138_end_to_end Q S proc st0 fint g t x l Hd Hw Hx F T K id n i e via d k Hid He) as (j & Hj & [H|[H|H]]); try assumption; [destruct e; try discriminate; reflexivity|exists j; (split; [exact Hj|]); auto..].
  right. right. intros bs R G. exists (List.concat bs). destruct (C142_forwarded_partial Q utf8 max tags _ bs Hm Ht R G) as (H1 & H2). auto.
Qed.

Definition xraw : @event xQ := ERaw (mkRaw 0 EncJSON [1%N] None None).
Definition xcalls : list (@sink_call xQ) := map CDeliver (firstn 1 xb) ++ [CDeliver xraw] ++ map CDeliver (skipn 1 xb) ++ [CFlushTimer 2; CDeliver (hd xraw xb); CFlushValve; CDeliver (hd xraw xb)].
Example C142_ex : rounds xcalls [xb; firstn 1 xb] /\ Forall (good_batch (Q := xQ) anyutf 200 [("b", "9"); ("c", "3")]) [xb; firstn 1 xb] /\
  meta_ok anyutf [("b", "9"); ("c", "3")].
Proof.
  split; [|split].
  - apply (rounds_flush (Q := xQ) [CDeliver (hd xraw xb); CDeliver xraw; CDeliver (nth 1 xb xraw)] (CFlushTimer 2)); [repeat constructor|reflexivity|].
    apply (rounds_flush (Q := xQ) [CDeliver (hd xraw xb)] CFlushValve); [repeat constructor|reflexivity|]. constructor. repeat constructor.
  - destruct C50_ex as (G & _). constructor; [exact G|]. constructor; [|constructor]. destruct G as (_ & G2 & G3 & _). split; [discriminate|]. inversion G2; inversion G3; subst. split; [constructor; auto|]. split; [constructor; auto|]. vm_compute. lia.
  - split; [|repeat constructor]. constructor; [cbn; intros [H|[]]; discriminate|repeat constructor; cbn; tauto].
Qed.
Print Assumptions C142_forwarded_partial.
Print Assumptions C142_rounds.
Print Assumptions C142_idle_flush.
Print Assumptions C142_refuted.
Print Assumptions C142_exit_partial.
Print Assumptions C142_end_to_end_partial.
