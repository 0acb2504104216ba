(** * Fair executions: every send ends, every queue is worked off, every fed node stops. *)
From Verif Require Import Base BaseFacts TelemetryModel FlowModel FlowSpec FlowProofs TopologyModel TopologySpec TopologyProofs TopologyProps NetworkModel NetworkSpec NetworkProofs LiveSpec.
Open Scope string_scope. Open Scope list_scope. Open Scope nat_scope.

Section Live.
Context `{Q : QLib} {S : Type}.
Variable proc : string -> S -> event -> S * list event * option event.
Variable st0 : string -> S.
Variable fint : string -> option N.
Variable g : config.
Variable t : started.
Hypothesis Hd : distinct_ids g.
Hypothesis Hw : wire g = Going t.
Variable x : nat -> @net Q S.
Variable l : nat -> option (@label Q).
Hypothesis Hx : execution proc st0 fint t x l.

Local Notation tr := (before l).
Lemma run_before i : nrun proc st0 fint t (tr i) (x i).
Proof.
  destruct Hx as [H0 Hs]. induction i as [|i IH]; [cbn; rewrite H0; constructor|]. cbn [before]. specialize (Hs i). replace (Datatypes.S i) with (i + 1) by lia.
  destruct (l i) as [a|]; [econstructor; eassumption|]. rewrite app_nil_r, Hs. exact IH.
Qed.
Lemma before_mono i j : i <= j -> exists more, tr j = tr i ++ more.
Proof.
  induction 1 as [|j _ (m & E)]; [exists []; symmetry; apply app_nil_r|]. cbn [before]. rewrite E, <- app_assoc. eauto.
Qed.
Lemma arrived_mono d i j : i <= j -> exists more, arrived d (tr j) = arrived d (tr i) ++ more.
Proof. intros H. destruct (before_mono i j H) as (m & ->). unfold arrived. rewrite flat_map_app. eauto. Qed.
Lemma polled_mono d i j : i <= j -> exists more, polled d (tr j) = polled d (tr i) ++ more.
Proof. intros H. destruct (before_mono i j H) as (m & ->). unfold polled. rewrite flat_map_app. eauto. Qed.
Let W : wf t := wired_wf g t Hd Hw.
Lemma queue_is d i : arrived d (tr i) = polled d (tr i) ++ n_queue (x i) d.
Proof. apply (i_queue _ _ _ _ _ _ (inv_run _ _ _ _ _ _ W (run_before i))). Qed.
Lemma over_later i j id : i <= j -> over g (x i) id -> over g (x j) id.
Proof.
  intros H. induction H as [|j _ IH]; [auto|]. intros Ho. specialize (IH Ho). destruct Hx as [_ Hs]. specialize (Hs j). replace (Datatypes.S j) with (j + 1) by lia.
  destruct (l j) as [a|]; [|rewrite Hs; exact IH]. eapply over_step; eassumption.
Qed.

(** what stays until something happens is there when it happens *)
Lemma until (P : nat -> Prop) (M : nat -> Prop) :
  (forall i, P i -> M i \/ P (i + 1)) -> forall n i, P i -> (~ P (i + n) \/ M (i + n)) -> exists k, i <= k /\ P k /\ M k.
Proof.
  intros H. induction n as [|n IH]; intros i Hp He.
  - rewrite Nat.add_0_r in He. destruct He as [He|He]; [contradiction|]. exists i. auto.
  - destruct (H i Hp) as [Hm|Hq]; [exists i; auto|]. destruct (IH (i + 1) Hq) as (k & Hk & Hr).
    + replace (i + 1 + n) with (i + Datatypes.S n) by lia. exact He.
    + exists k. split; [lia|exact Hr].
Qed.

(** ** Sends *)
Lemma out_stays u i c r : n_out (x i) u = c :: r ->
  (exists ok, l i = Some (LCopy u (fst c) (snd c) ok) /\ n_out (x (i + 1)) u = r) \/ n_out (x (i + 1)) u = c :: r.
Proof.
  intros E. destruct Hx as [_ Hs]. specialize (Hs i). destruct (l i) as [a|]; [|right; rewrite Hs; exact E]. remember (x (i + 1)) as s' eqn:Es'. clear Es'.
  destruct Hs as [id sends k e H1 H2 H3 H4|id sends H1 H2 H3|H1|v d e r' ok H1|d sources sends e q H1 H2 H3 H4|d sources e q H1 H2 H3 H4|d sources o e H1 H2 H3].
  - right. cbn. unfold upd. destruct (weqb (Src id k) u) eqn:Eu; [|exact E]. apply weqb_eq in Eu. subst u. congruence.
  - right. cbn [n_out set_out set_done]. unfold upd. destruct (weqb (Src id 0) u) eqn:Eu; [|exact E]. apply weqb_eq in Eu. subst u. rewrite H3 in E. discriminate.
  - right. cbn. unfold upd. destruct (weqb Tim u) eqn:Eu; [|exact E]. apply weqb_eq in Eu. subst u. congruence.
  - replace (n_out (set_out v r' (if ok then set_queue d (n_queue (x i) d ++ [e]) (x i) else x i))) with (upd weqb v r' (n_out (x i))) by (destruct ok; reflexivity).
    unfold upd. destruct (weqb v u) eqn:Eu; [|right; exact E]. apply weqb_eq in Eu. subst v. rewrite E in H1. injection H1 as -> ->. left. exists ok. auto.
  - right. cbn [n_out set_out set_filter set_queue]. unfold upd. destruct (weqb (Fil d) u) eqn:Eu; [|exact E]. apply weqb_eq in Eu. subst u. congruence.
  - right. exact E.
  - right. exact E.
Qed.
Lemma out_copy u i d e ok : l i = Some (LCopy u d e ok) -> n_out (x i) u = (d, e) :: n_out (x (i + 1)) u.
Proof.
  intros E. destruct Hx as [_ Hs]. specialize (Hs i). rewrite E in Hs. inversion Hs as [| | |v dd ee rr kk Ho Hv Hn| | |]; subst.
  rewrite Ho. f_equal. destruct ok; cbn; unfold upd; rewrite weqb_refl; reflexivity.
Qed.
Hypothesis F : fair g x l.
Lemma out_drains u : forall c i, n_out (x i) u = c -> exists j, i <= j /\ n_out (x j) u = [].
Proof.
  induction c as [|c r IH]; intros i E; [exists i; auto|].
  destruct (fair_send _ _ _ F u i) as (j & Hj & Hf).
  destruct (until (fun k => n_out (x k) u = c :: r) (fun k => exists d e ok, l k = Some (LCopy u d e ok))) with (n := j - i) (i := i) as (k & Hk & Hp & d & e & ok & Hm).
  - intros k Hk. destruct (out_stays u k c r Hk) as [(ok & H & _)|H]; eauto.
  - exact E.
  - replace (i + (j - i)) with j by lia. destruct Hf as [Hf|Hf]; [left; rewrite Hf; discriminate|right; exact Hf].
  - apply out_copy in Hm. rewrite Hp in Hm. injection Hm as _ Hm. symmetry in Hm. destruct (IH _ Hm) as (j2 & Hj2 & H). exists j2. split; [lia|exact H].
Qed.

(** ** Queues *)
Lemma poll_here d i e : l i = Some (LPoll d e) -> polled d (tr (i + 1)) = polled d (tr i) ++ [e].
Proof. intros E. replace (i + 1) with (Datatypes.S i) by lia. cbn [before]. rewrite E, polled_snoc. cbn. rewrite seqb_refl'. reflexivity. Qed.
Lemma not_taken d i n : n <= List.length (arrived d (tr i)) -> List.length (polled d (tr i)) < n -> n_queue (x i) d <> [].
Proof. intros H1 H2 E. rewrite (queue_is d i), app_length, E in H1. cbn in H1. lia. Qed.
Lemma arrived_le d i j : i <= j -> List.length (arrived d (tr i)) <= List.length (arrived d (tr j)).
Proof. intros H. destruct (arrived_mono d i j H) as (m & ->). rewrite app_length. lia. Qed.

Definition filter_ready (d : string) (i : nat) : Prop := n_queue (x i) d <> [] /\ n_out (x i) (Fil d) = [] /\ fn_stopped (n_filter (x i) d) = false.
Lemma filter_ready_stays d i : In d (map fst (g_filters g)) -> filter_ready d i -> (exists e, l i = Some (LPoll d e)) \/ filter_ready d (i + 1).
Proof.
  intros Hin (Hq & Ho & Hst). destruct Hx as [_ Hs]. specialize (Hs i). destruct (l i) as [a|]; [|right; unfold filter_ready; rewrite Hs; auto].
  unfold filter_ready. remember (x (i + 1)) as s' eqn:Es'. clear Es'.
  destruct Hs as [id sends k e H1 H2 H3 H4|id sends H1 H2 H3|H1|v d' e r' ok H1|d' sources sends e q H1 H2 H3 H4|d' sources e q H1 H2 H3 H4|d' sources o e H1 H2 H3].
  - right. auto.
  - right. auto.
  - right. auto.
  - right. split; [|split].
    + destruct ok; [|exact Hq]. cbn. unfold upd. destruct (seqb d' d) eqn:Ed; [|exact Hq]. destruct (n_queue (x i) d'); discriminate.
    + replace (n_out (set_out v r' (if ok then set_queue d' (n_queue (x i) d' ++ [e]) (x i) else x i))) with (upd weqb v r' (n_out (x i))) by (destruct ok; reflexivity).
      unfold upd. destruct (weqb v (Fil d)) eqn:Ev; [|exact Ho]. apply weqb_eq in Ev. subst v. congruence.
    + destruct ok; exact Hst.
  - destruct (seqb d' d) eqn:Ed; [apply seqb_eq in Ed; subst d'; left; eauto|]. right. cbn [n_queue n_out n_filter set_out set_filter set_queue]. unfold upd. cbn [weqb]. rewrite Ed. auto.
  - destruct (seqb d' d) eqn:Ed; [apply seqb_eq in Ed; subst d'; left; eauto|]. right. cbn [n_queue n_out n_filter set_sink set_queue]. unfold upd. rewrite Ed. auto.
  - right. auto.
Qed.
(** what has arrived at a filter is taken, unless it stops *)
Lemma filter_takes d : In d (map fst (g_filters g)) -> forall n i, n <= List.length (arrived d (tr i)) ->
  exists j, i <= j /\ (fn_stopped (n_filter (x j) d) = true \/ n <= List.length (polled d (tr j))).
Proof.
  intros Hin. induction n as [|n IH]; intros i Ha; [exists i; split; [lia|right; lia]|].
  destruct (IH i ltac:(lia)) as (j1 & Hj1 & Hc). destruct Hc as [Hc|Hc]; [exists j1; auto|].
  destruct (out_drains (Fil d) _ j1 eq_refl) as (j2 & Hj2 & Ho).
  destruct (fn_stopped (n_filter (x j2) d)) eqn:Hst; [exists j2; split; [lia|auto]|].
  destruct (le_lt_dec (Datatypes.S n) (List.length (polled d (tr j2)))) as [Hl|Hl]; [exists j2; split; [lia|auto]|].
  assert (Hq : n_queue (x j2) d <> []) by (apply (not_taken d j2 (Datatypes.S n)); [pose proof (arrived_le d i j2 ltac:(lia)); lia|exact Hl]).
  destruct (fair_filter _ _ _ F d Hin j2) as (j3 & Hj3 & Hf).
  destruct (until (filter_ready d) (fun k => exists e, l k = Some (LPoll d e))) with (n := j3 - j2) (i := j2) as (k & Hk & _ & e & Hm).
  - intros k. apply filter_ready_stays. exact Hin.
  - split; [exact Hq|auto].
  - replace (j2 + (j3 - j2)) with j3 by lia. destruct Hf as [[Hf|[Hf|Hf]]|Hf]; [left; intros (A & _ & _); congruence|left; intros (_ & A & _); congruence|left; intros (_ & _ & A); congruence|right; exact Hf].
  - exists (k + 1). split; [lia|right]. rewrite (poll_here d k e Hm), app_length. cbn. destruct (polled_mono d j1 k ltac:(lia)) as (m & ->). rewrite app_length. lia.
Qed.

Definition sink_ready (d : string) (i : nat) : Prop := n_queue (x i) d <> [] /\ sr_hand (n_sink (x i) d) = None /\ sr_stopped (n_sink (x i) d) = false.
Lemma sink_ready_stays d i : sink_ready d i -> (exists e, l i = Some (LPoll d e)) \/ sink_ready d (i + 1).
Proof.
  intros (Hq & Hh & Hst). destruct Hx as [_ Hs]. specialize (Hs i). destruct (l i) as [a|]; [|right; unfold sink_ready; rewrite Hs; auto].
  unfold sink_ready. remember (x (i + 1)) as s' eqn:Es'. clear Es'.
  destruct Hs as [id sends k e H1 H2 H3 H4|id sends H1 H2 H3|H1|v d' e r' ok H1|d' sources sends e q H1 H2 H3 H4|d' sources e q H1 H2 H3 H4|d' sources o e H1 H2 H3].
  - right. auto.
  - right. auto.
  - right. auto.
  - right. split; [|destruct ok; auto]. destruct ok; [|exact Hq]. cbn. unfold upd. destruct (seqb d' d) eqn:Ed; [|exact Hq]. destruct (n_queue (x i) d'); discriminate.
  - destruct (seqb d' d) eqn:Ed; [apply seqb_eq in Ed; subst d'; left; eauto|]. right. cbn [n_queue n_sink set_out set_filter set_queue]. unfold upd. rewrite Ed. auto.
  - destruct (seqb d' d) eqn:Ed; [apply seqb_eq in Ed; subst d'; left; eauto|]. right. cbn [n_queue n_sink set_sink set_queue]. unfold upd. rewrite Ed. auto.
  - right. cbn [n_queue n_sink set_sink]. unfold upd. destruct (seqb d' d) eqn:Ed; [|auto]. apply seqb_eq in Ed. subst d'. congruence.
Qed.
(** an event in hand stays there until the valve is open *)
Definition holding (d : string) (sources : list string) (e : event) (k : nat) (i : nat) : Prop :=
  sr_hand (n_sink (x i) d) = Some e /\ sr_stopped (n_sink (x i) d) = false /\ sr_shut (n_sink (x i) d) = k.
Lemma valve_step d sources i o : alookup seqb d (t_sinks t) = Some sources -> l i = Some (LValve d o) ->
  exists e, sr_hand (n_sink (x i) d) = Some e /\ n_sink (x (i + 1)) d = sink_inner (List.length sources) (fint d) (n_sink (x i) d) e o.
Proof.
  intros El E. destruct Hx as [_ Hs]. specialize (Hs i). rewrite E in Hs. inversion Hs as [| | | | | |dd ss oo e Hl Hst Hh Hv Hn]; subst.
  exists e. split; [exact Hh|]. rewrite El in Hl. injection Hl as <-. cbn. unfold upd. rewrite seqb_refl', Hst, Hh. reflexivity.
Qed.
Lemma holding_stays d sources e k i : alookup seqb d (t_sinks t) = Some sources ->
  holding d sources e k i -> l i = Some (LValve d true) \/ holding d sources e k (i + 1).
Proof.
  intros El (Hh & Hst & Hk).
  assert (Hv : forall o, l i = Some (LValve d o) -> l i = Some (LValve d true) \/ holding d sources e k (i + 1)).
  { intros [|] E; [auto|]. right. destruct (valve_step d sources i false El E) as (e' & H1 & H2). rewrite Hh in H1. injection H1 as <-. unfold holding. rewrite H2. cbn. auto. }
  destruct Hx as [_ Hs]. specialize (Hs i). unfold holding. destruct (l i) as [a|] eqn:Ea; [|right; rewrite Hs; auto].
  remember (x (i + 1)) as s' eqn:Es'.
  destruct Hs as [id sends j e' H1 H2 H3 H4|id sends H1 H2 H3|H1|v d' e' r' ok H1|d' sources' sends e' q H1 H2 H3 H4|d' sources' e' q H1 H2 H3 H4|d' sources' o e' H1 H2 H3].
  - right. auto.
  - right. auto.
  - right. auto.
  - right. destruct ok; auto.
  - right. auto.
  - right. cbn [n_sink set_sink set_queue]. unfold upd. destruct (seqb d' d) eqn:Ed; [|auto]. apply seqb_eq in Ed. subst d'. congruence.
  - destruct (seqb d' d) eqn:Ed.
    + apply seqb_eq in Ed. subst d'. unfold holding in Hv. rewrite <- Es' in Hv. exact (Hv o eq_refl).
    + right. cbn [n_sink set_sink]. unfold upd. rewrite Ed. auto.
Qed.
(** and then leaves it, or the sink stops *)
Lemma sink_empties d sources : alookup seqb d (t_sinks t) = Some sources -> forall m i, List.length sources - sr_shut (n_sink (x i) d) <= m ->
  exists j, i <= j /\ (sr_stopped (n_sink (x j) d) = true \/ sr_hand (n_sink (x j) d) = None).
Proof.
  intros El. assert (Hin : In d (g_sinks g)) by exact (proj1 (sink_lookup g t Hd Hw _ _ El)).
  induction m as [m IH] using lt_wf_ind; intros i Hm.
  destruct (sr_stopped (n_sink (x i) d)) eqn:Hst; [exists i; auto|]. destruct (sr_hand (n_sink (x i) d)) as [e|] eqn:Hh; [|exists i; auto].
  destruct (fair_valve _ _ _ F d Hin i) as (j & Hj & Hf).
  destruct (until (holding d sources e (sr_shut (n_sink (x i) d))) (fun k => l k = Some (LValve d true))) with (n := j - i) (i := i) as (k & Hk & (A1 & A2 & A3) & Hl).
  - intros k. apply holding_stays. exact El.
  - unfold holding. auto.
  - replace (i + (j - i)) with j by lia. destruct Hf as [Hf|[Hf|Hf]]; [left; intros (A & _ & _); congruence|left; intros (_ & A & _); congruence|right; exact Hf].
  - destruct (valve_step d sources k true El Hl) as (e' & H1 & H2). rewrite A1 in H1. injection H1 as <-.
    destruct (is_shutdown e) eqn:Ee.
    + destruct e; try discriminate Ee. cbn [sink_inner] in H2. destruct (Nat.leb_spec (List.length sources) (sr_shut (n_sink (x k) d) + 1)).
      * exists (k + 1). split; [lia|]. left. rewrite H2. reflexivity.
      * destruct (IH (List.length sources - sr_shut (n_sink (x (k + 1)) d))) with (i := k + 1) as (j2 & Hj2 & Hr).
        -- rewrite H2. cbn. lia.
        -- lia.
        -- exists j2. split; [lia|exact Hr].
    + exists (k + 1). split; [lia|]. right. rewrite H2. destruct e; try discriminate Ee; cbn; try reflexivity; destruct (_ <? _)%N; reflexivity.
Qed.
(** what has arrived at a sink is taken, unless it stops *)
Lemma sink_takes d sources : alookup seqb d (t_sinks t) = Some sources -> forall n i, n <= List.length (arrived d (tr i)) ->
  exists j, i <= j /\ (sr_stopped (n_sink (x j) d) = true \/ n <= List.length (polled d (tr j))).
Proof.
  intros El. assert (Hin : In d (g_sinks g)) by exact (proj1 (sink_lookup g t Hd Hw _ _ El)).
  induction n as [|n IH]; intros i Ha; [exists i; split; [lia|right; lia]|].
  destruct (IH i ltac:(lia)) as (j1 & Hj1 & Hc). destruct Hc as [Hc|Hc]; [exists j1; auto|].
  destruct (sink_empties d sources El _ j1 (le_n _)) as (j2 & Hj2 & [Ho|Ho]); [exists j2; split; [lia|auto]|].
  destruct (sr_stopped (n_sink (x j2) d)) eqn:Hst; [exists j2; split; [lia|auto]|].
  destruct (le_lt_dec (Datatypes.S n) (List.length (polled d (tr j2)))) as [Hl|Hl]; [exists j2; split; [lia|auto]|].
  assert (Hq : n_queue (x j2) d <> []) by (apply (not_taken d j2 (Datatypes.S n)); [pose proof (arrived_le d i j2 ltac:(lia)); lia|exact Hl]).
  destruct (fair_sink _ _ _ F d Hin j2) as (j3 & Hj3 & Hf).
  destruct (until (sink_ready d) (fun k => exists e, l k = Some (LPoll d e))) with (n := j3 - j2) (i := j2) as (k & Hk & _ & e & Hm).
  - intros k. apply sink_ready_stays.
  - split; [exact Hq|auto].
  - replace (j2 + (j3 - j2)) with j3 by lia. destruct Hf as [[Hf|[Hf|Hf]]|Hf]; [left; intros (A & _ & _); congruence|left; intros (_ & A & _); congruence|left; intros (_ & _ & A); congruence|right; exact Hf].
  - exists (k + 1). split; [lia|right]. rewrite (poll_here d k e Hm), app_length. cbn. destruct (polled_mono d j1 k ltac:(lia)) as (m & ->). rewrite app_length. lia.
Qed.

(** ** Stopping *)
(** once enough was taken, all that had arrived by then was *)
Lemma taken_all d i j : i <= j -> List.length (arrived d (tr i)) <= List.length (polled d (tr j)) -> exists more, polled d (tr j) = arrived d (tr i) ++ more.
Proof.
  intros H Hl. destruct (arrived_mono d i j H) as (m & E). rewrite (queue_is d j) in E.
  destruct (app_eq_app _ _ _ _ E) as (k & [[-> E2]|[E1 E2]]); [eauto|]. rewrite E1, app_length in Hl. destruct k; [|cbn in Hl; lia]. exists []. rewrite E1, !app_nil_r. reflexivity.
Qed.
Lemma filter_stops d sources sends i : alookup seqb d (t_filters t) = Some (sources, sends) ->
  Nat.max 1 (List.length sources) <= shutdowns (arrived d (tr i)) -> exists j, i <= j /\ fn_stopped (n_filter (x j) d) = true.
Proof.
  intros El Hm. assert (Hin : In d (map fst (g_filters g))).
  { destruct (filter_lookup g t Hd Hw _ _ _ El) as (fw & H & _). exact (in_map fst _ _ H). }
  destruct (filter_takes d Hin _ i (le_n _)) as (j & Hj & [H|H]); [eauto|]. exists j. split; [exact Hj|].
  destruct (taken_all d i j Hj H) as (m & E). eapply filter_must_stop; [exact Hd|exact Hw|apply run_before|exact El|]. rewrite E, shutdowns_app. lia.
Qed.
Lemma sink_stops d sources i : alookup seqb d (t_sinks t) = Some sources -> 1 <= shutdowns (arrived d (tr i)) -> exists j, i <= j /\ sr_stopped (n_sink (x j) d) = true.
Proof.
  intros El Hm. destruct (sink_takes d sources El _ i (le_n _)) as (j & Hj & [H|H]); [eauto|].
  destruct (taken_all d i j Hj H) as (m & E). destruct (sink_empties d sources El _ j (le_n _)) as (j2 & Hj2 & Hc).
  destruct (sr_stopped (n_sink (x j2) d)) eqn:Hst; [exists j2; split; [lia|exact Hst]|]. destruct Hc as [Hc|Hc]; [discriminate|]. exfalso.
  destruct (sink_marker_seen _ _ _ _ _ Hd Hw _ _ d sources (run_before j2) El) as (done & Ep & Hz & _). rewrite Hst in Ep. unfold in_hand in Ep. rewrite Hc, app_nil_r in Ep.
  destruct (polled_mono d j j2 Hj2) as (m2 & E2). rewrite E2, E, <- app_assoc in Ep. apply (f_equal shutdowns) in Ep. rewrite shutdowns_app in Ep. lia.
Qed.
(** ** Getting there *)
Lemma sent_all u d i : exists j, i <= j /\ attempts u d (tr j) = if mem d (sends_of t u) then said proc st0 t (tr j) u else [].
Proof.
  destruct (out_drains u _ i eq_refl) as (j & Hj & E). exists j. split; [exact Hj|].
  assert (L := i_link _ _ _ _ _ _ (inv_run _ _ _ _ _ _ W (run_before j)) u d). rewrite E in L. cbn in L. rewrite app_nil_r in L. exact L.
Qed.
Lemma sink_gets d i : In d (g_sinks g) -> exists j, i <= j /\ (sr_stopped (n_sink (x j) d) = true \/
  (sr_hand (n_sink (x j) d) = None /\ exists more, polled d (tr j) = arrived d (tr i) ++ more)).
Proof.
  intros Hin. destruct (sink_found g t Hd Hw d Hin) as (sources & El). destruct (sink_takes d sources El _ i (le_n _)) as (j & Hj & [H|H]); [exists j; auto|].
  destruct (sink_empties d sources El _ j (le_n _)) as (j2 & Hj2 & [H2|H2]); [exists j2; split; [lia|auto]|]. exists j2. split; [lia|]. right. split; [exact H2|].
  destruct (taken_all d i j Hj H) as (m & E). destruct (polled_mono d j j2 Hj2) as (m2 & E2). exists (m ++ m2). rewrite E2, E, app_assoc. reflexivity.
Qed.
Lemma filter_gets d i : In d (map fst (g_filters g)) -> exists j, i <= j /\ (fn_stopped (n_filter (x j) d) = true \/ exists more, polled d (tr j) = arrived d (tr i) ++ more).
Proof.
  intros Hin. destruct (filter_takes d Hin _ i (le_n _)) as (j & Hj & [H|H]); [exists j; auto|]. exists j. split; [exact Hj|]. right. exact (taken_all d i j Hj H).
Qed.

Lemma emitted_later id k e i j : i <= j -> In e (emitted id k (tr i)) -> In e (emitted id k (tr j)).
Proof. intros H Hin. destruct (before_mono i j H) as (m & ->). unfold emitted. rewrite flat_map_app. apply in_or_app. auto. Qed.
Lemma polled_later d e i j : i <= j -> In e (polled d (tr i)) -> In e (polled d (tr j)).
Proof. intros H Hin. destruct (polled_mono d i j H) as (m & ->). apply in_or_app. auto. Qed.
Lemma arrived_in u d e tr' : In e (arrived_from u d tr') -> In e (arrived d tr').
Proof.
  unfold arrived_from, arrived. rewrite !in_flat_map. intros (a & Ha & He). exists a. split; [exact Ha|].
  destruct a as [| | |u' d' e' [|]| |]; try contradiction. destruct (seqb d d'); [destruct (weqb u u'); [exact He|contradiction]|rewrite andb_false_r in He; contradiction].
Qed.
Lemma run_passes G n e : is_shutdown e = false -> (forall st, In e (snd (fst (f_process G st e))) /\ snd (f_process G st e) = None) ->
  forall polls st buf shut, fr_rest (f_run G n polls st buf shut) = [] -> In (Some e) polls -> In e (fr_sent (f_run G n polls st buf shut)).
Proof.
  intros Hns Hp. induction polls as [|p polls IH]; intros st buf shut Hr Hin; [contradiction|].
  destruct Hin as [->|Hin].
  - destruct (Hp st) as [H1 H2]. destruct e; try discriminate Hns; cbn [f_run]; destruct (f_process G st _) as [[st' pushed] err]; cbn in H1, H2; subst err; cbn [fr_sent]; rewrite <- app_assoc; apply in_or_app; right; apply in_or_app; auto.
  - destruct p as [e'|]; [|cbn [f_run] in *; apply IH; assumption].
    destruct (is_shutdown e') eqn:Es.
    + destruct e'; try discriminate Es. cbn [f_run] in *. destruct (n <=? shut + 1); cbn [fr_rest fr_sent] in *; [subst polls; contradiction|right; apply IH; assumption].
    + destruct e'; try discriminate Es; cbn [f_run] in *; destruct (f_process G st _) as [[st' pushed] [fe|]]; cbn [fr_rest fr_sent] in *;
        first [right; apply IH; assumption | rewrite <- app_assoc; apply in_or_app; right; apply in_or_app; right; apply IH; assumption].
Qed.
(** ** Pulses *)
Lemma pulses_grow : timer_goes l -> forall n, exists j, n <= pulses (tr j).
Proof.
  intros T. induction n as [|n (j & IH)]; [exists 0; lia|]. destruct (T j) as (j2 & Hj2 & E). exists (j2 + 1). replace (j2 + 1) with (Datatypes.S j2) by lia. cbn [before]. rewrite E, pulses_snoc.
  destruct (before_mono j j2 Hj2) as (m & E2). assert (P : pulses (tr j2) = pulses (tr j) + pulses m) by (rewrite E2; unfold pulses; rewrite filter_app, app_length; reflexivity). cbn. lia.
Qed.
Lemma pulses_mono i j : i <= j -> pulses (tr i) <= pulses (tr j).
Proof. intros H. destruct (before_mono i j H) as (m & ->). unfold pulses. rewrite filter_app, app_length. lia. Qed.
Lemma emits_payload tr' s : nrun proc st0 fint t tr' s -> forall id k e, In e (emitted id k tr') -> payload_event e = true \/ e = EShutdown.
Proof.
  induction 1 as [|tr' s a s' R IH St]; intros id k e Hin; [contradiction|]. unfold emitted in *. rewrite flat_map_app in Hin. apply in_app_or in Hin as [Hin|Hin]; [exact (IH _ _ _ Hin)|].
  destruct St as [i sends k' e' H1 H2 H3 H4|i sends H1 H2 H3|H1|u dd e' r ok H1|dd sources sends e' q H1 H2 H3 H4|dd sources e' q H1 H2 H3 H4|dd sources o e' H1 H2 H3]; cbn in Hin; try contradiction.
  - destruct (seqb id i && (k =? k')); [destruct Hin as [<-|[]]; auto|contradiction].
  - destruct (seqb id i && (k =? 0)); [destruct Hin as [<-|[]]; auto|contradiction].
Qed.
Lemma due_in k n : forall l1 l2 earlier, (0 < n)%N -> (forall j, In j earlier -> (j < n)%N) -> (forall j, In j l1 -> (j < n)%N) -> ((k =? 0)%N || (n mod k =? 0)%N) = true ->
  In n (due (Some k) earlier (l1 ++ n :: l2)).
Proof.
  induction l1 as [|a l1 IH]; intros l2 earlier H0 He Hl Hk; cbn [due app].
  - replace (forallb (fun j => (j <? n)%N) (0%N :: earlier)) with true; [rewrite Hk; left; reflexivity|]. symmetry. apply forallb_forall. intros j [<-|Hj]; apply N.ltb_lt; auto.
  - apply in_or_app. right. apply IH; auto; [|intros j Hj; apply Hl; right; exact Hj]. intros j [<-|Hj]; [apply Hl; left; reflexivity|apply He, Hj].
Qed.
Lemma only_timer d tr' s : nrun proc st0 fint t tr' s -> (forall u, upstream g u d -> ~ In u (map fst (g_filters g))) -> flush_indices (arrived d tr') = flush_indices (arrived_from Tim d tr').
Proof.
  intros R Hup.
  assert (H : forall w e, In (LCopy w d e true) tr' -> w = Tim \/ flush_indices [e] = []).
  { intros w e Hin. assert (Ha : In e (attempts w d tr')) by (unfold attempts; apply in_flat_map; eexists; split; [exact Hin|]; cbn beta iota; rewrite weqb_refl, seqb_refl'; left; reflexivity).
    assert (Ln := i_link _ _ _ _ _ _ (inv_run _ _ _ _ _ _ W R) w d). destruct (mem d (sends_of t w)) eqn:Em; [|apply app_eq_nil in Ln as [Ln _]; rewrite Ln in Ha; destruct Ha].
    assert (Hs : In e (said proc st0 t tr' w)) by (rewrite <- Ln; apply in_or_app; auto).
    destruct (sends_upstream g t Hd Hw w d Em) as [->|(u & T & U)]; [auto|right]. destruct w as [i k|i|]; cbn in T; [subst i|subst i|contradiction].
    - destruct (emits_payload tr' s R u k e Hs) as [Hp| ->]; [destruct e; try discriminate Hp; reflexivity|reflexivity].
    - exfalso. apply (Hup u U). cbn in Em. destruct (alookup seqb u (t_filters t)) as [[srcs sends]|] eqn:El; [|discriminate Em]. destruct (filter_lookup g t Hd Hw _ _ _ El) as (fw & H & _). exact (in_map fst _ _ H). }
  clear R. revert H. induction tr' as [|a tr' IH]; intros H; [reflexivity|]. unfold arrived, arrived_from, flush_indices in *. cbn [flat_map]. rewrite !flat_map_app, IH by (intros w e Hin; apply (H w e); right; exact Hin).
  f_equal. destruct a as [| | |w dd e [|]| |]; try reflexivity. destruct (seqb d dd) eqn:E; [|rewrite andb_false_r; reflexivity]. apply seqb_eq in E. subst dd.
  destruct (H w e (or_introl eq_refl)) as [->|Hf]; [rewrite weqb_refl; reflexivity|]. cbn [flat_map] in *. rewrite Hf. destruct (weqb Tim w); [cbn [andb flat_map]; rewrite Hf|]; reflexivity.
Qed.
Lemma flushed d k n : In d (g_sinks g) -> (exists u, upstream g u d) -> (forall u, upstream g u d -> ~ In u (map fst (g_filters g))) ->
  timer_goes l -> (forall i e, l i <> Some (LCopy Tim d e false)) -> fint d = Some k -> ((k =? 0)%N || (n mod k =? 0)%N) = true -> (0 < n < 2 ^ 64)%N ->
  forall i, exists j, i <= j /\ (sr_stopped (n_sink (x j) d) = true \/ In n (timer_flushes (sr_calls (n_sink (x j) d)))).
Proof.
  intros Hk (u & Hu) Hup T Hnk Hfi Hdue [Hn0 Hn] i.
  destruct (pulses_grow T (N.to_nat n)) as (j0 & Hp). set (j1 := i + j0). assert (Hp1 : N.to_nat n <= pulses (tr j1)) by (pose proof (pulses_mono j0 j1 ltac:(lia)); lia).
  assert (Hkept : forall j, arrived_from Tim d (tr j) = attempts Tim d (tr j)).
  { induction j as [|j IH]; [reflexivity|]. cbn [before]. rewrite attempts_app. unfold arrived_from in *. rewrite flat_map_app, IH. f_equal. destruct (l j) as [a|] eqn:E; [|reflexivity].
    unfold attempts. cbn [flat_map]. rewrite !app_nil_r. destruct a as [| | |w dd e [|]| |]; try reflexivity. destruct (weqb Tim w && seqb d dd) eqn:Eq; [|reflexivity]. exfalso.
    apply andb_prop in Eq as [E1 E2]. apply weqb_eq in E1. apply seqb_eq in E2. subst w dd. exact (Hnk j e E). }
  assert (M : mem d (sends_of t Tim) = true).
  { apply mem_In. cbn. apply (proj2 (C51_timer g t Hd Hw) d). destruct Hu as (fw & Hin & Hv). exists u, fw. split; [|exact Hv]. unfold senders_of in Hin. apply in_app_or in Hin as [Hin|Hin]; [|exact Hin].
    exfalso. apply (Hup u); [exists fw; split; [unfold senders_of; apply in_or_app; auto|exact Hv]|exact (in_map fst _ _ Hin)]. }
  destruct (sent_all Tim d j1) as (j2 & Hj2 & E2). rewrite M in E2.
  destruct (sink_gets d j2 Hk) as (j3 & Hj3 & [H|[Hh (m & E3)]]); [exists j3; split; [lia|auto]|]. exists j3. split; [lia|]. right.
  destruct (sink_found g t Hd Hw d Hk) as (sources & El). destruct (i_sink _ _ _ _ _ _ (inv_run _ _ _ _ _ _ W (run_before j3)) d sources El) as [Kq (ms & Km & Ka)].
  destruct (sink_seen (List.length sources) (fint d) ms sink_start [] (sink_seen_start (fint d))) as (seen & (_ & _ & H) & E).
  cbn [flush_indices flat_map app sink_start in_hand sr_hand sr_queue] in E. fold (sink_exec (List.length sources) (fint d) ms sink_start) in H, E. rewrite <- Km in H, E. rewrite Kq, app_nil_r, Ka in E. unfold in_hand in E. rewrite Hh in E. cbn in E. rewrite app_nil_r in E.
  rewrite H, E, Hfi. clear H E seen.
  rewrite E3. unfold flush_indices. rewrite flat_map_app. fold (flush_indices (arrived d (tr j2))). rewrite (only_timer d _ _ (run_before j2) Hup), Hkept, E2. cbn [said].
  assert (Hp2 : N.to_nat n <= pulses (tr j2)) by (pose proof (pulses_mono j1 j2 Hj2); lia).
  assert (Q1 : forall a, flush_indices (map pulse_event a) = map (fun i => (N.of_nat i mod 2 ^ 64)%N) a) by (induction a as [|a r IH]; [reflexivity|cbn; f_equal; exact IH]).
  rewrite Q1. replace (pulses (tr j2)) with ((N.to_nat n - 1) + Datatypes.S (pulses (tr j2) - N.to_nat n)) by lia. rewrite seq_app, map_app. cbn [seq map]. rewrite <- app_assoc. cbn [app].
  replace (N.of_nat (1 + (N.to_nat n - 1)) mod 2 ^ 64)%N with n by (replace (1 + (N.to_nat n - 1)) with (N.to_nat n) by lia; rewrite N2Nat.id; symmetry; apply N.mod_small; exact Hn).
  apply due_in; [exact Hn0|intros j []| |exact Hdue].
  intros j Hj. apply in_map_iff in Hj as (a & <- & Ha). apply in_seq in Ha. eapply N.le_lt_trans; [apply N.mod_le; discriminate|]. lia.
Qed.
Hypothesis Hkept : all_kept l.
Lemma kept_all i : no_drops (tr i).
Proof.
  induction i as [|i IH]; intros u d e H; [contradiction|]. cbn [before] in H. apply in_app_or in H as [H|H]; [exact (IH u d e H)|].
  destruct (l i) as [a|] eqn:E; [|contradiction]. destruct H as [->|[]]. exact (Hkept i u d e E).
Qed.
(** what [w] keeps saying arrives at [d] *)
Lemma said_arrives w d e i : mem d (sends_of t w) = true -> (forall j, i <= j -> In e (said proc st0 t (tr j) w)) -> exists j, i <= j /\ In e (arrived d (tr j)).
Proof.
  intros M H. destruct (sent_all w d i) as (j & Hj & E). rewrite M in E. exists j. split; [exact Hj|]. apply (arrived_in w).
  rewrite (arrived_attempts_all _ _ _ (kept_all j)), E. exact (H j Hj).
Qed.
Lemma way_there e : is_data e = true -> forall u via d, way g u via d -> In d (g_sinks g) -> Forall (passes proc e) via ->
  forall i w, thread_of u w -> (match w with Fil _ => In u (map fst (g_filters g)) | _ => ~ In u (map fst (g_filters g)) end) ->
  (forall j, i <= j -> In e (said proc st0 t (tr j) w)) ->
  exists j, i <= j /\ ((exists v, In v (via ++ [d]) /\ halted g (x j) v) \/ In e (delivered (sr_calls (n_sink (x j) d)))).
Proof.
  intros He. assert (Hns : is_shutdown e = false) by (destruct e; try discriminate He; reflexivity).
  induction 1 as [u d Hu|u f via d Hu Hf Hwy IH]; intros Hk Hp i w Hw1 Hw2 Hs.
  - destruct (said_arrives w d e i (upstream_sends g t Hd Hw w u d Hw1 Hu Hw2) Hs) as (j & Hj & Ha).
    destruct (sink_gets d j Hk) as (j2 & Hj2 & [H|[Hh (m & E)]]).
    + exists j2. split; [lia|]. left. exists d. split; [left; reflexivity|right; auto].
    + exists j2. split; [lia|]. right.
      assert (D : delivered (sr_calls (n_sink (x j2) d)) ++ filter is_data (in_hand (n_sink (x j2) d)) = filter is_data (polled d (tr j2))).
      { destruct (sink_found g t Hd Hw d Hk) as (sources & El). destruct (i_sink _ _ _ _ _ _ (inv_run _ _ _ _ _ _ W (run_before j2)) d sources El) as [Kq (ms & Km & Ka)].
        assert (D := sink_delivers (List.length sources) (fint d) ms sink_start). fold (sink_exec (List.length sources) (fint d) ms sink_start) in D. rewrite <- Km, Kq, app_nil_r, Ka in D. exact D. }
      unfold in_hand in D. rewrite Hh in D. cbn [filter] in D. rewrite app_nil_r in D. rewrite D. apply filter_In. split; [|exact He]. rewrite E. apply in_or_app. auto.
  - destruct (said_arrives w f e i (upstream_sends g t Hd Hw w u f Hw1 Hu Hw2) Hs) as (j & Hj & Ha). inversion Hp as [|? ? Hpf Hpv]; subst.
    destruct (filter_gets f j Hf) as (j2 & Hj2 & [H|(m & E)]).
    + exists j2. split; [lia|]. left. exists f. split; [left; reflexivity|left; auto].
    + destruct (IH Hk Hpv j2 (Fil f) eq_refl Hf) as (j3 & Hj3 & Hr).
      * intros k Hk2. cbn [said]. destruct (filter_found g t Hd Hw f Hf) as (sources & sends & El). rewrite El.
        destruct (i_filter _ _ _ _ _ _ (inv_run _ _ _ _ _ _ W (run_before k)) f sources sends El) as [_ Hrest].
        apply run_passes; [exact Hns|exact Hpf|exact Hrest|]. apply in_map. apply (polled_later f e j2 k Hk2). rewrite E. apply in_or_app. auto.
      * exists j3. split; [lia|]. destruct Hr as [(v & Hv & Hh)|Hr]; [left|right; exact Hr]. exists v. split; [right; exact Hv|exact Hh].
Qed.
Hypothesis K : markers_kept l.
Hypothesis Z : sources_stop g x.
Lemma kept i : no_marker_dropped (tr i).
Proof.
  induction i as [|i IH]; intros u d H; [contradiction|]. cbn [before] in H. apply in_app_or in H as [H|H]; [exact (IH u d H)|].
  destruct (l i) as [a|] eqn:E; [|contradiction]. destruct H as [->|[]]. exact (K i u d E).
Qed.
Definition told (i : nat) (id : string) : Prop := over g (x i) id /\ forall v, upstream g id v -> 1 <= shutdowns (attempts (speaker g id) v (tr i)).
Lemma told_later i j id : i <= j -> told i id -> told j id.
Proof.
  intros H [Ho Ha]. split; [eapply over_later; eassumption|]. intros v Hv. specialize (Ha v Hv). destruct (before_mono i j H) as (m & ->). rewrite attempts_app, shutdowns_app. lia.
Qed.
Lemma over_told i id : over g (x i) id -> exists j, i <= j /\ told j id.
Proof.
  intros Ho. destruct (out_drains (speaker g id) _ i eq_refl) as (j & Hj & E). exists j. split; [exact Hj|].
  split; [eapply over_later; eassumption|]. exact (proj2 (quiet_announced _ _ _ g t Hd Hw _ _ id (run_before j) (over_later i j id Hj Ho) E)).
Qed.
Lemma all_told ids : Forall (fun id => exists i, told i id) ids -> exists i, Forall (told i) ids.
Proof.
  induction 1 as [|id ids (i & Hi) _ (j & Hj)]; [exists 0; constructor|]. exists (i + j). constructor; [eapply told_later; [|exact Hi]; lia|].
  eapply Forall_impl; [|exact Hj]. intros y Hy. eapply told_later; [|exact Hy]. lia.
Qed.
Lemma fed_told id : fed g id -> exists i, told i id.
Proof.
  induction 1 as [id Hs|id u Hk Hu _ (i & Ho & Ha)|id fw u Hf Hu _ (i & A1) _ IHall].
  - destruct (Z id Hs) as (i & Hi).
    assert (Hnf : ~ In id (map fst (g_filters g))).
    { intros H. apply in_map_iff in H as ([k fw] & <- & H). destruct (sender_kind g Hd k fw) as [[_ A]|[_ A]]; [unfold senders_of; apply in_or_app; auto|exact (A Hs)|apply A; exact (in_map fst _ _ H)]. }
    assert (Ho : over g (x i) id).
    { split; [intros _; exact Hi|]. split; intros H; [contradiction|]. exfalso. apply in_map_iff in Hs as ([k fw] & <- & Hs). apply (sink_not_sender g Hd k fw H). unfold senders_of. apply in_or_app. auto. }
    destruct (over_told i id Ho) as (j & _ & H). eauto.
  - destruct (sink_found g t Hd Hw id Hk) as (sources & El).
    destruct (sink_stops id sources i El) as (j & Hj & Hst).
    + assert (T := arrived_total id (tr i) [speaker g u] ltac:(constructor; [intros []|constructor])). cbn [total fold_right] in T.
      rewrite arrived_attempts in T by apply kept. specialize (Ha id Hu). lia.
    + destruct (over_told j id) as (j2 & _ & H); [|eauto].
      split; [|split; [|intros _; exact Hst]]; intros H; exfalso; apply in_map_iff in H as ([k fw] & <- & H); apply (sink_not_sender g Hd k fw Hk); unfold senders_of; apply in_or_app; auto.
  - assert (Hfi : In id (map fst (g_filters g))) by exact (in_map fst _ _ Hf).
    destruct (filter_found g t Hd Hw id Hfi) as (sources & sends & El).
    destruct (filter_lookup g t Hd Hw _ _ _ El) as (fw' & Hin & _ & [Hnd Hl]).
    assert (fw' = fw) by (apply (senders_unique g Hd id); unfold senders_of; apply in_or_app; auto). subst fw'.
    destruct (all_told sources) as (i2 & A2); [apply Forall_forall; intros y Hy; apply Hl in Hy as [Hy1 Hy2]; exact (IHall y Hy1 Hy2)|].
    set (k := i + i2). assert (B1 : told k u) by (eapply told_later; [|exact A1]; lia).
    assert (B2 : Forall (told k) sources) by (eapply Forall_impl; [|exact A2]; intros y Hy; eapply told_later; [|exact Hy]; lia).
    destruct (filter_stops id sources sends k El) as (j & Hj & Hst).
    + apply Nat.max_lub.
      * assert (T := arrived_total id (tr k) [speaker g u] ltac:(constructor; [intros []|constructor])). cbn [total fold_right] in T. rewrite arrived_attempts in T by apply kept.
        destruct B1 as [_ Ha]. specialize (Ha id Hu). lia.
      * etransitivity; [|apply (arrived_total id (tr k) (map (speaker g) sources)); apply NoDup_speakers; exact Hnd].
        rewrite <- (map_length (speaker g) sources). apply total_ge. intros w Hin'. apply in_map_iff in Hin' as (y & <- & Hy).
        rewrite Forall_forall in B2. destruct (B2 y Hy) as [_ Ha]. rewrite arrived_attempts by apply kept. apply Ha. apply Hl in Hy. tauto.
    + destruct (over_told j id) as (j2 & _ & H); [|eauto].
      split; [|split; [intros _; exact Hst|]]; intros H; exfalso.
      * destruct (sender_kind g Hd id fw) as [[_ A]|[_ A]]; [unfold senders_of; apply in_or_app; auto|exact (A H)|exact (A Hfi)].
      * apply (sink_not_sender g Hd id fw H). unfold senders_of. apply in_or_app. auto.
Qed.
End Live.
