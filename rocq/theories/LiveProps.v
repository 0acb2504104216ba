(** * Properties C129 and C130, and C85 and C86 for executions that go on for ever. *)
From Verif Require Import Base BaseFacts TelemetryModel FlowModel FlowSpec FlowProofs QExample TelemetryProps FlowProps TopologyModel TopologySpec TopologyProofs TopologyProps NetworkModel NetworkSpec NetworkProofs NetworkProps LiveSpec LiveProofs.
Open Scope string_scope. Open Scope list_scope. Open Scope nat_scope.

(** ** C85 and C86, continued.
    In every execution in which no thread is left standing, no valve stays closed and
    no marker is dropped, once the sources stop, whatever is fed stops.  Missing: what
    is not fed (C85_refuted). *)
Theorem C85_fair_partial : forall (Q : QLib) (S : Type) proc (st0 : string -> S) fint g t x l, distinct_ids g -> wire g = Going t -> execution proc st0 fint t x l ->
  fair g x l -> markers_kept l -> sources_stop g x -> forall id, fed g id -> exists i, forall j, i <= j -> over g (x j) id.
Proof.
  intros Q S proc st0 fint g t x l Hd Hw Hx F K Z id Hf. destruct (fed_told proc st0 fint g t Hd Hw x l Hx F K Z id Hf) as (i & Ho & _).
  exists i. intros j Hj. exact (over_later proc st0 fint g t x l Hx i j id Hj Ho).
Qed.
(** And where nothing has two upstreams and no queue is ever full, a fed sink behind a
    source ends up having delivered all the data the source ever sent.  Missing as in C86. *)
Theorem C86_fair_partial : forall (Q : QLib) (S : Type) proc (st0 : string -> S) fint g t x l, distinct_ids g -> wire g = Going t -> execution proc st0 fint t x l ->
  fair g x l -> all_kept l -> sources_stop g x -> quiet proc st0 -> single_upstreams g ->
  forall u d, In u (map fst (g_natives g ++ g_sources g)) -> upstream g u d -> In d (g_sinks g) ->
  exists i, forall j, i <= j -> sr_stopped (n_sink (x j) d) = true /\
    delivered (sr_calls (n_sink (x j) d)) = filter is_data (arrived d (before l j)) /\ forall k, arrived_from (Src u k) d (before l j) = emitted u k (before l j).
Proof.
  intros Q S proc st0 fint g t x l Hd Hw Hx F K Z Hq Hs u d Hu Hup Hk.
  assert (Km : markers_kept l) by (intros i v e; apply K).
  destruct (C85_fair_partial Q S proc st0 fint g t x l Hd Hw Hx F Km Z d) as (i & Ho); [apply (fed_sink g d u Hk Hup); apply fed_source; exact Hu|].
  exists i. intros j Hj. destruct (Ho j Hj) as (_ & _ & St). specialize (St Hk). split; [exact St|].
  destruct (C86_delivered_partial Q S proc st0 fint g t (before l j) (x j) Hd Hw (run_before proc st0 fint t x l Hx j) Hq Hs u d Hup Hk St) as [D1 D2].
  split; [exact D1|]. apply D2; [exact (kept_all l K j)|exact Hu].
Qed.

(** ** C129: what is under way gets there *)
(** every send comes to its end *)
Theorem C129_sends_end : forall (Q : QLib) (S : Type) proc (st0 : string -> S) fint g t x l, execution proc st0 fint t x l -> fair g x l ->
  forall u, again_and_again (fun i => n_out (x i) u = []).
Proof. intros Q S proc st0 fint g t x l Hx F u i. exact (out_drains proc st0 fint g t x l Hx F u _ i eq_refl). Qed.
(** so whatever a source's thread sends is tried on every forward *)
Theorem C129_sent : forall (Q : QLib) (S : Type) proc (st0 : string -> S) fint g t x l, distinct_ids g -> wire g = Going t -> execution proc st0 fint t x l -> fair g x l ->
  forall id fw k d, In (id, fw) (g_natives g ++ g_sources g) -> In d fw -> again_and_again (fun i => attempts (Src id k) d (before l i) = emitted id k (before l i)).
Proof.
  intros Q S proc st0 fint g t x l Hd Hw Hx F id fw k d Hin Hf i. destruct (C129_sends_end Q S proc st0 fint g t x l Hx F (Src id k) i) as (j & Hj & E). exists j. split; [exact Hj|].
  assert (H := C84_sources Q S proc st0 fint g t (before l j) (x j) Hd Hw (run_before proc st0 fint t x l Hx j) id fw k d Hin).
  unfold pending in H. rewrite E in H. cbn [flat_map] in H. rewrite app_nil_r in H. rewrite H. replace (existsb (seqb d) fw) with true; [reflexivity|].
  symmetry. apply existsb_exists. exists d. split; [exact Hf|apply seqb_refl'].
Qed.
(** what is on the queue of a filter or sink is taken, unless that has stopped *)
Theorem C129_taken : forall (Q : QLib) (S : Type) proc (st0 : string -> S) fint g t x l, distinct_ids g -> wire g = Going t -> execution proc st0 fint t x l -> fair g x l ->
  forall d, In d (map fst (g_filters g) ++ g_sinks g) -> forall i, exists j, i <= j /\ (halted g (x j) d \/ exists more, polled d (before l j) = arrived d (before l i) ++ more).
Proof.
  intros Q S proc st0 fint g t x l Hd Hw Hx F d Hin i. apply in_app_or in Hin as [Hin|Hin].
  - destruct (filter_gets proc st0 fint g t Hd Hw x l Hx F d i Hin) as (j & Hj & [H|H]); exists j; (split; [exact Hj|]); [left; left; auto|auto].
  - destruct (sink_gets proc st0 fint g t Hd Hw x l Hx F d i Hin) as (j & Hj & [H|[_ H]]); exists j; (split; [exact Hj|]); [left; right; auto|auto].
Qed.
(** what is on the queue of a sink is delivered, in order, unless it has stopped *)
Theorem C129_delivered : forall (Q : QLib) (S : Type) proc (st0 : string -> S) fint g t x l, distinct_ids g -> wire g = Going t -> execution proc st0 fint t x l -> fair g x l ->
  forall d, In d (g_sinks g) -> forall i, exists j, i <= j /\
  (sr_stopped (n_sink (x j) d) = true \/ exists more, delivered (sr_calls (n_sink (x j) d)) = filter is_data (arrived d (before l i)) ++ more).
Proof.
  intros Q S proc st0 fint g t x l Hd Hw Hx F d Hin i. destruct (sink_gets proc st0 fint g t Hd Hw x l Hx F d i Hin) as (j & Hj & [H|[Hh (m & E)]]); exists j; (split; [exact Hj|]); [auto|right].
  assert (D := C84_sinks Q S proc st0 fint g t (before l j) (x j) Hd Hw (run_before proc st0 fint t x l Hx j) d Hin). unfold in_hand in D. rewrite Hh in D. cbn [filter] in D. rewrite app_nil_r in D.
  exists (filter is_data m). rewrite D, E, filter_app. reflexivity.
Qed.
(** From end to end: if no queue is ever full, data a source sends is delivered by every
    sink there is a way to, through filters that hand it on, unless something on that
    way has stopped. *)
Theorem C129_end_to_end : forall (Q : QLib) (S : Type) proc (st0 : string -> S) fint g t x l, distinct_ids g -> wire g = Going t -> execution proc st0 fint t x l -> fair g x l -> all_kept l ->
  forall id k i e via d, In id (map fst (g_natives g ++ g_sources g)) -> In e (emitted id k (before l i)) -> is_data e = true ->
  way g id via d -> In d (g_sinks g) -> Forall (passes proc e) via ->
  exists j, i <= j /\ ((exists v, In v (via ++ [d]) /\ halted g (x j) v) \/ In e (delivered (sr_calls (n_sink (x j) d)))).
Proof.
  intros Q S proc st0 fint g t x l Hd Hw Hx F K id k i e via d Hid He Hdat Hwy Hk Hp.
  apply (way_there proc st0 fint g t Hd Hw x l Hx F K e Hdat id via d Hwy Hk Hp i (Src id k)); [reflexivity| |].
  - intros Hf. apply in_map_iff in Hf as ([u fw] & E & Hf). cbn in E. subst u.
    destruct (sender_kind g Hd id fw) as [[_ N]|[_ N]]; [unfold senders_of; apply in_or_app; auto|contradiction|]. apply N. exact (in_map fst _ _ Hf).
  - intros j Hj. cbn [said]. exact (emitted_later l id k e i j Hj He).
Qed.

(** ** C130: sinks are flushed when they are due: a running sink that only sources forward
    to is flushed for every pulse its interval divides, if its queue takes the pulses *)
Theorem C130_flushed : forall (Q : QLib) (S : Type) proc (st0 : string -> S) fint g t x l, distinct_ids g -> wire g = Going t -> execution proc st0 fint t x l -> fair g x l -> timer_goes l ->
  forall d k n, In d (g_sinks g) -> (exists u, upstream g u d) -> (forall u, upstream g u d -> ~ In u (map fst (g_filters g))) ->
  (forall i e, l i <> Some (LCopy Tim d e false)) -> fint d = Some k -> (k = 0 \/ n mod k = 0)%N -> (0 < n < 2 ^ 64)%N ->
  exists i, sr_stopped (n_sink (x i) d) = true \/ In n (timer_flushes (sr_calls (n_sink (x i) d))).
Proof.
  intros Q S proc st0 fint g t x l Hd Hw Hx F T d k n Hk Hu Hup Hnk Hfi Hdue Hn.
  destruct (flushed proc st0 fint g t Hd Hw x l Hx F d k n Hk Hu Hup T Hnk Hfi) with (i := 0) as (j & _ & H); [|exact Hn|eauto].
  apply orb_true_iff. destruct Hdue as [Hz|Hz]; [left|right]; apply N.eqb_eq; exact Hz.
Qed.

(** ** Examples *)
Section Rest.
Context {Q : QLib} {S : Type}.
Variable proc : string -> S -> event -> S * list event * option event.
Variable st0 : string -> S.
Variable fint : string -> option N.
(** a run that comes to rest, and nothing happens then *)
Lemma stay t tr s : nrun proc st0 fint t tr s -> exists x, execution proc st0 fint t x (nth_error tr) /\ forall i, List.length tr <= i -> x i = s.
Proof.
  induction 1 as [|tr s a s' R (x & [X0 Xs] & Xe) St].
  - exists (fun _ => net0 st0). split; [split; [reflexivity|intros i; destruct i; reflexivity]|reflexivity].
  - exists (fun i => if i <=? List.length tr then x i else s'). split; [split|].
    + exact X0.
    + intros i. destruct (lt_eq_lt_dec i (List.length tr)) as [[H|H]|H].
      * rewrite nth_error_app1 by exact H. specialize (Xs i). rewrite (leb_correct i), (leb_correct (i + 1)) by lia. exact Xs.
      * subst i. rewrite nth_error_app2, Nat.sub_diag by lia. cbn [nth_error]. rewrite leb_correct, leb_correct_conv by lia. rewrite Xe by lia. exact St.
      * replace (nth_error (tr ++ [a]) i) with (@None (@label Q)) by (symmetry; apply nth_error_None; rewrite app_length; cbn; lia). rewrite !leb_correct_conv by lia. reflexivity.
    + intros i Hi. rewrite app_length in Hi. cbn in Hi. rewrite leb_correct_conv by lia. reflexivity.
Qed.
Lemma rest_fair g t (tr : list (@label Q)) s x l : distinct_ids g -> wire g = Going t -> at_rest proc fint t s -> (forall i, List.length tr <= i -> x i = s) -> fair g x l.
Proof.
  intros Hd Hw Hr Hx.
  assert (O : forall u, n_out s u = []) by (intros u; destruct (n_out s u) as [|[d e] r] eqn:E; [reflexivity|]; discriminate (Hr _ _ (step_copy proc fint t s u d e r true E))).
  split; [intros u|intros d Hin|intros d Hin|intros d Hin]; intros i; exists (List.length tr + i); (split; [lia|]); rewrite Hx by lia.
  - auto.
  - left. unfold filter_waits. destruct (n_queue s d) as [|e q] eqn:Eq; [auto|]. destruct (fn_stopped (n_filter s d)) eqn:Es; [auto|]. exfalso.
    destruct (filter_found g t Hd Hw d Hin) as (sources & sends & El). discriminate (Hr _ _ (step_filter proc fint t s d sources sends e q El (O _) Es Eq)).
  - left. unfold sink_waits. destruct (n_queue s d) as [|e q] eqn:Eq; [auto|]. destruct (sr_stopped (n_sink s d)) eqn:Es; [auto|]. destruct (sr_hand (n_sink s d)) eqn:Eh; [right; left; discriminate|]. exfalso.
    destruct (sink_found g t Hd Hw d Hin) as (sources & El). discriminate (Hr _ _ (step_sink proc fint t s d sources e q El Es Eh Eq)).
  - destruct (sr_hand (n_sink s d)) as [e|] eqn:Eh; [|auto]. destruct (sr_stopped (n_sink s d)) eqn:Es; [auto|]. exfalso.
    destruct (sink_found g t Hd Hw d Hin) as (sources & El). discriminate (Hr _ _ (step_valve proc fint t s d sources true e El Es Eh)).
Qed.
End Rest.
(** the run of C85_ex: a source, a filter that hands everything on, a sink *)
Example C85_fair_ex : exists x, execution xpass_proc (fun _ => tt) (fun _ => Some 1%N) xrow_started x (nth_error xrow_trace) /\ fair xrow x (nth_error xrow_trace) /\
  all_kept (nth_error xrow_trace) /\ markers_kept (nth_error xrow_trace) /\ sources_stop xrow x.
Proof.
  destruct C85_ex as (s & R & _ & Hr & _). destruct (stay _ _ _ _ _ _ R) as (x & X & E). exists x. split; [exact X|]. split; [eapply rest_fair; [exact (fun _ => tt)|exact xrow_ids|exact xrow_wired|exact Hr|exact E]|].
  assert (K : all_kept (nth_error xrow_trace)) by (intros i u d e H; apply nth_error_In in H; repeat (destruct H as [H|H]; [discriminate H|]); exact H).
  split; [exact K|]. split; [intros i u d; apply K|]. intros id [<-|[]]. exists 5.
  destruct X as [_ Xs]. specialize (Xs 4). cbn in Xs. inversion Xs. reflexivity.
Qed.
Example C129_ex : In (xdata "kept") (emitted "sources.a" 1 (before (nth_error xrow_trace) 1)) /\ way xrow "sources.a" ["filters.f"] "sinks.null" /\ Forall (passes xpass_proc (xdata "kept")) ["filters.f"].
Proof.
  split; [left; reflexivity|]. split.
  - apply way_filter; [apply xrow_upstream; auto|left; reflexivity|]. apply way_direct, xrow_upstream. auto.
  - constructor; [|constructor]. intros st. split; [left; reflexivity|reflexivity].
Qed.

(** a source, a sink, and the timer for ever *)
Definition xbeat : config := mkConfig ["sinks.null"] [] [] [("sources.a", ["sinks.null"])].
Definition xbeat_started : started := mkStarted [("sinks.null", ["sources.a"])] [] [("sources.a", ["sinks.null"])] ["sinks.null"].
Definition xnull := "sinks.null".
Definition xidx (s : @net xQ unit) : N := ((n_idx s + 1) mod 2 ^ 64)%N.
Definition xpulse (s : @net xQ unit) : net := set_out Tim (copies [xnull] (ETimerFlush (xidx s))) (set_idx (xidx s) s).
Definition xcopied (s : @net xQ unit) : net := set_out Tim [] (set_queue xnull (n_queue s xnull ++ [ETimerFlush (n_idx s)]) s).
Definition xtaken (s : @net xQ unit) : net :=
  set_sink xnull (sink_step 1 (Some 2%N) (sink_step 1 (Some 2%N) (n_sink s xnull) (Arrive (ETimerFlush (n_idx s)))) FlowModel.Poll) (set_queue xnull [] s).
Definition xturned (s : @net xQ unit) : net := set_sink xnull (sink_step 1 (Some 2%N) (n_sink s xnull) (ValveSays true)) s.
Fixpoint xbeats (s : @net xQ unit) (i : nat) : net :=
  match i with
  | 0 => s | 1 => xpulse s | 2 => xcopied (xpulse s) | 3 => xtaken (xcopied (xpulse s))
  | Datatypes.S (Datatypes.S (Datatypes.S (Datatypes.S i))) => xbeats (xturned (xtaken (xcopied (xpulse s)))) i
  end.
Fixpoint xlabels (s : @net xQ unit) (i : nat) : option (@label xQ) :=
  match i with
  | 0 => Some LPulse | 1 => Some (LCopy Tim xnull (ETimerFlush (xidx s)) true) | 2 => Some (LPoll xnull (ETimerFlush (xidx s))) | 3 => Some (LValve xnull true)
  | Datatypes.S (Datatypes.S (Datatypes.S (Datatypes.S i))) => xlabels (xturned (xtaken (xcopied (xpulse s)))) i
  end.
Definition xquiet (s : @net xQ unit) : Prop :=
  (forall u, n_out s u = []) /\ n_queue s xnull = [] /\ sr_queue (n_sink s xnull) = [] /\ sr_hand (n_sink s xnull) = None /\ sr_stopped (n_sink s xnull) = false.
Lemma xquiet_next s : xquiet s -> xquiet (xturned (xtaken (xcopied (xpulse s)))).
Proof.
  intros (O & Eq & Es & Eh & Est). unfold xquiet.
  assert (K : n_sink (xturned (xtaken (xcopied (xpulse s)))) xnull = sink_inner 1 (Some 2%N) (mkSinkRun [] (Some (ETimerFlush (xidx s))) (sr_last (n_sink s xnull)) (sr_shut (n_sink s xnull)) false (sr_calls (n_sink s xnull))) (ETimerFlush (xidx s)) true).
  { unfold xturned, xtaken, xcopied, xpulse. cbn [n_sink set_sink set_queue set_out set_idx n_idx]. unfold upd. cbn [sink_step]. change (seqb xnull xnull) with true. cbv iota.
    unfold sink_step. cbn [sr_stopped sr_hand sr_queue sr_last sr_shut sr_calls]. rewrite Est, Eh, Es. reflexivity. }
  split; [|split; [reflexivity|]].
  - intros u. unfold xturned, xtaken, xcopied, xpulse. cbn [n_out set_sink set_queue set_out set_idx]. unfold upd. destruct (weqb Tim u) eqn:E; [reflexivity|apply O].
  - rewrite K. cbn [sink_inner sr_last sr_queue sr_shut sr_calls]. destruct (_ <? _)%N; auto.
Qed.
Lemma xbeat_steps : forall n s i, i < n -> xquiet s -> match xlabels s i with Some a => nstep (fun _ st e => (st, [e], None)) (fun _ => Some 2%N) xbeat_started (xbeats s i) a (xbeats s (i + 1)) | None => xbeats s (i + 1) = xbeats s i end.
Proof.
  induction n as [|n IH]; intros s i Hi H; [lia|]. destruct i as [|[|[|[|i]]]].
  - destruct H as (O & _). exact (step_pulse _ _ xbeat_started s (O Tim)).
  - exact (step_copy _ _ xbeat_started (xpulse s) Tim xnull (ETimerFlush (xidx s)) [] true Logic.eq_refl).
  - destruct H as (O & Eq & Es & Eh & Est). cbn [xlabels plus xbeats]. change (ETimerFlush (xidx s)) with (@ETimerFlush xQ (n_idx (xcopied (xpulse s)))).
    refine (step_sink _ (fun _ => Some 2%N) xbeat_started (xcopied (xpulse s)) xnull ["sources.a"] _ [] Logic.eq_refl Est Eh _).
    unfold xcopied, xpulse. cbn [n_queue set_out set_queue set_idx n_idx]. unfold upd. change (seqb xnull xnull) with true. cbv iota. rewrite Eq. reflexivity.
  - destruct H as (O & Eq & Es & Eh & Est). cbn [xlabels plus xbeats].
    assert (K : n_sink (xtaken (xcopied (xpulse s))) xnull = mkSinkRun [] (Some (ETimerFlush (xidx s))) (sr_last (n_sink s xnull)) (sr_shut (n_sink s xnull)) false (sr_calls (n_sink s xnull))).
    { unfold xtaken, xcopied, xpulse. cbn [n_sink set_sink set_queue set_out set_idx n_idx]. unfold upd. change (seqb xnull xnull) with true. cbv iota.
      unfold sink_step. cbn [sr_stopped sr_hand sr_queue sr_last sr_shut sr_calls]. rewrite Est, Eh, Es. reflexivity. }
    refine (step_valve _ (fun _ => Some 2%N) xbeat_started (xtaken (xcopied (xpulse s))) xnull ["sources.a"] true (ETimerFlush (xidx s)) Logic.eq_refl _ _); rewrite K; reflexivity.
  - cbn [plus xlabels xbeats]. apply IH; [lia|]. apply xquiet_next. exact H.
Qed.
Lemma xbeats_quiet : forall n s, xquiet s -> xquiet (xbeats s (4 * n)) /\ xlabels s (4 * n) = Some LPulse.
Proof.
  induction n as [|n IH]; intros s H; [split; [exact H|reflexivity]|]. replace (4 * Datatypes.S n) with (4 + 4 * n) by lia. cbn [plus xbeats xlabels]. apply IH, xquiet_next, H.
Qed.
Lemma xlabels_kept : forall n s i, i < n -> forall u d e, xlabels s i <> Some (LCopy u d e false).
Proof. induction n as [|n IH]; intros s i Hi u d e; [lia|]. destruct i as [|[|[|[|i]]]]; cbn [xlabels]; try discriminate. apply IH. lia. Qed.
Example C130_ex : let x := xbeats (net0 (fun _ => tt)) in let l := xlabels (net0 (fun _ => tt)) in
  distinct_ids xbeat /\ wire xbeat = Going xbeat_started /\ execution (fun _ st e => (st, [e], None)) (fun _ => tt) (fun _ => Some 2%N) xbeat_started x l /\ fair xbeat x l /\ timer_goes l /\ all_kept l /\
  upstream xbeat "sources.a" "sinks.null".
Proof.
  cbv zeta. assert (X0 : xquiet (net0 (fun _ => tt))) by (split; [reflexivity|repeat split; reflexivity]).
  split; [unfold distinct_ids; cbn; repeat (constructor; [cbn; intuition discriminate|]); constructor|]. split; [reflexivity|].
  split; [split; [reflexivity|intros i; apply (xbeat_steps (Datatypes.S i)); [lia|exact X0]]|].
  split; [split; [intros u|intros d []|intros d [<-|[]]|intros d [<-|[]]]; intros i; exists (4 * i); (split; [lia|]); destruct (xbeats_quiet i _ X0) as ((O & Eq & Es & Eh & Est) & _)|].
  - left. apply O.
  - left. left. exact Eq.
  - left. exact Eh.
  - split; [intros i; exists (4 * i); split; [lia|apply (xbeats_quiet i _ X0)]|]. split; [intros i u d e; apply (xlabels_kept (Datatypes.S i)); lia|].
    exists ["sinks.null"]. split; left; reflexivity.
Qed.

Print Assumptions C85_fair_partial.
Print Assumptions C86_fair_partial.
Print Assumptions C129_sends_end.
Print Assumptions C129_sent.
Print Assumptions C129_taken.
Print Assumptions C129_delivered.
Print Assumptions C129_end_to_end.
Print Assumptions C130_flushed.
