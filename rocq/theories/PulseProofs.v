(** * Lemmas about pulses going through filters. *)
From Verif Require Import Base BaseFacts TelemetryModel FlowModel FlowSpec FlowProofs TopologyModel TopologySpec TopologyProofs TopologyProps NetworkModel NetworkSpec NetworkProofs LiveSpec LiveProofs PulseSpec.
From Coq Require Import Lia.
Open Scope string_scope. Open Scope list_scope. Open Scope nat_scope.

(** each index comes after all those below it; [E] came before *)
Fixpoint steady (E l : list N) : Prop :=
  match l with [] => True | n :: r => (forall m, (0 < m < n)%N -> In m E) /\ steady (n :: E) r end.
Lemma steady_incl l : forall E E', (forall m, (0 < m)%N -> In m E -> In m E') -> steady E l -> steady E' l.
Proof.
  induction l as [|n r IH]; intros E E' H; [auto|]. cbn. intros [H1 H2]. split; [intros m Hm; apply H; [lia|apply H1, Hm]|].
  revert H2. apply IH. intros m Hm [<-|Hi]; [left; reflexivity|right; auto].
Qed.
Lemma steady_app a : forall E b, steady E (a ++ b) <-> steady E a /\ steady (rev a ++ E) b.
Proof.
  induction a as [|n a IH]; intros E b; cbn; [tauto|]. rewrite IH, <- app_assoc. cbn. tauto.
Qed.
Lemma steady_seq k : steady [] (map (fun i => (N.of_nat i mod 2 ^ 64)%N) (seq 1 k)).
Proof.
  induction k as [|k IH]; [exact Logic.I|]. rewrite seq_S, map_app. apply steady_app. split; [exact IH|]. cbn [map steady]. split; [|exact Logic.I].
  intros m Hm. rewrite app_nil_r, <- in_rev. apply in_map_iff. exists (N.to_nat m).
  assert (B : (N.of_nat (1 + k) mod 2 ^ 64 <= N.of_nat (1 + k))%N) by (apply N.mod_le; discriminate).
  assert (B2 : (N.of_nat (1 + k) mod 2 ^ 64 < 2 ^ 64)%N) by (apply N.mod_lt; discriminate).
  rewrite N2Nat.id. split; [apply N.mod_small; lia|]. apply in_seq. lia.
Qed.
(** the first time an index comes, only smaller ones have come *)
Lemma steady_first l n : steady [] l -> (0 < n)%N -> In n l -> exists l1 l2, l = l1 ++ n :: l2 /\ forall j, In j l1 -> (j < n)%N.
Proof.
  intros H Hn Hin.
  assert (Sp : exists l1 l2, l = l1 ++ n :: l2 /\ ~ In n l1).
  { clear H. induction l as [|a l IH]; [contradiction|]. destruct (N.eq_dec a n) as [->|Ha]; [exists [], l; auto|]. destruct Hin as [Hin|Hin]; [contradiction|].
    destruct (IH Hin) as (l1 & l2 & -> & Hno). exists (a :: l1), l2. split; [reflexivity|]. intros [H|H]; contradiction. }
  destruct Sp as (l1 & l2 & -> & Hno). exists l1, l2. split; [reflexivity|]. intros j Hj. apply steady_app in H as [H _].
  destruct (N.lt_ge_cases j n) as [Hl|Hl]; [exact Hl|]. exfalso. destruct (N.eq_dec j n) as [->|Hd]; [contradiction|].
  apply in_split in Hj as (a & b & ->). apply steady_app in H as [_ [H _]]. apply Hno. apply in_or_app. left. specialize (H n ltac:(lia)). rewrite app_nil_r, <- in_rev in H. exact H.
Qed.
Lemma in_flush {Q : QLib} n (l : list event) : In n (flush_indices l) <-> In (ETimerFlush n) l.
Proof.
  unfold flush_indices. rewrite in_flat_map. split.
  - intros (e & He & Hn). destruct e; try contradiction. destruct Hn as [->|[]]. exact He.
  - intros H. exists (ETimerFlush n). split; [exact H|left; reflexivity].
Qed.

Section Filter.
Context `{Q : QLib}.
Variable F : filt.
Variable good : f_state F -> Prop.
Variable mark : f_state F -> N.
Hypothesis Hf : forall st e, good st -> is_shutdown e = false ->
    let '(st', pushed, err) := f_process F st e in
    good st' /\ (forall fe, err = Some fe -> flush_indices [fe] = []) /\
    match e with
    | ETimerFlush n => err = None /\ (mark st' = mark st \/ mark st' = n) /\
        (flush_indices pushed = [n] \/ (flush_indices pushed = [] /\ (n <= mark st)%N))
    | _ => mark st' = mark st /\ flush_indices pushed = []
    end.
Lemma run_steady k : forall es st buf shut E O, good st -> flush_indices buf = [] -> (mark st = 0%N \/ In (mark st) E) ->
  (forall a m, In a E -> (0 < m < a)%N -> In m E) -> (forall m, (0 < m)%N -> In m E -> In m O) -> steady E (flush_indices es) ->
  let r := f_run F k (map Some es) st buf shut in
  steady O (flush_indices (fr_sent r)) /\ incl (flush_indices (fr_sent r)) (flush_indices es) /\
  (fr_rest r = [] -> forall m, (0 < m)%N -> In m (flush_indices es) -> In m (rev (flush_indices (fr_sent r)) ++ O)).
Proof.
  induction es as [|e es IH]; intros st buf shut E O G B M D I H; cbn zeta.
  - cbn. split; [exact Logic.I|]. split; [apply incl_refl|]. intros _ m _ [].
  - destruct (is_shutdown e) eqn:Es.
    + destruct e; try discriminate Es. cbn [map f_run]. destruct (k <=? shut + 1); cbn [fr_sent fr_rest].
      * split; [exact Logic.I|]. split; [intros m []|]. intros Hr m _ Hin. destruct es; [destruct Hin|discriminate Hr].
      * exact (IH st buf (shut + 1) E O G B M D I H).
    + assert (K := Hf st e G Es).
      assert (R : f_run F k (map Some (e :: es)) st buf shut =
        (let '(st', pushed, err) := f_process F st e in
         match err with
         | None => let res := f_run F k (map Some es) st' [] shut in mkFres ((buf ++ pushed) ++ fr_sent res) (fr_stopped res) (fr_rest res) (fr_state res) (fr_buffer res)
         | Some fe => let res := f_run F k (map Some es) st' (buf ++ pushed) shut in mkFres (fe :: fr_sent res) (fr_stopped res) (fr_rest res) (fr_state res) (fr_buffer res)
         end)) by (destruct e; try discriminate Es; reflexivity).
      rewrite R. clear R. destruct (f_process F st e) as [[st' pushed] err]. destruct K as (G' & Ke & K).
      destruct (is_timer_flush e) eqn:Ef.
      * destruct e as [| |n| |]; try discriminate Ef. destruct K as (-> & Km & K). cbn [fr_sent fr_rest]. rewrite !flush_indices_app, B. cbn [app].
        change (flush_indices (ETimerFlush n :: es)) with (n :: flush_indices es) in *. destruct H as [H1 H2].
        assert (D' : forall a m, In a (n :: E) -> (0 < m < a)%N -> In m (n :: E)).
        { intros a m [<-|Ha] Hm; right; [apply H1, Hm|exact (D a m Ha Hm)]. }
        assert (M' : mark st' = 0%N \/ In (mark st') (n :: E)).
        { destruct Km as [->| ->]; [destruct M as [M|M]; [left; exact M|right; right; exact M]|right; left; reflexivity]. }
        destruct K as [-> |[-> Hn]].
        -- destruct (IH st' [] shut (n :: E) (n :: O) G' Logic.eq_refl M' D') as (A1 & A2 & A3); [intros m Hm [<-|Hi]; [left; reflexivity|right; auto]|exact H2|].
           cbn [app steady rev]. split; [split; [intros m Hm; apply I; [lia|apply H1, Hm]|exact A1]|]. split; [intros m [<-|Hm]; [left; reflexivity|right; apply A2, Hm]|].
           intros Hr m Hm Hin. rewrite <- app_assoc. cbn [app]. destruct Hin as [<-|Hin]; [apply in_or_app; right; left; reflexivity|exact (A3 Hr m Hm Hin)].
        -- assert (Old : (0 < n)%N -> In n E).
           { intros Hp. destruct M as [M|M]; [lia|]. destruct (N.eq_dec n (mark st)) as [->|Hd]; [exact M|]. apply (D _ _ M). lia. }
           destruct (IH st' [] shut (n :: E) O G' Logic.eq_refl M' D') as (A1 & A2 & A3); [intros m Hm [<-|Hi]; [apply I, Old; assumption|auto]|exact H2|].
           cbn [app]. split; [exact A1|]. split; [intros m Hm; right; apply A2, Hm|]. intros Hr m Hm [<-|Hin]; [apply in_or_app; right; apply I, Old; assumption|exact (A3 Hr m Hm Hin)].
      * assert (Fe : flush_indices (e :: es) = flush_indices es) by (destruct e; try discriminate Ef; reflexivity). rewrite Fe in *. clear Fe.
        assert (K' : mark st' = mark st /\ flush_indices pushed = []) by (destruct e; try discriminate Ef; exact K). destruct K' as [Km Kp].
        rewrite <- Km in M. destruct err as [fe|]; cbn [fr_sent fr_rest].
        -- destruct (IH st' (buf ++ pushed) shut E O G') as (A1 & A2 & A3); [rewrite flush_indices_app, B, Kp; reflexivity|assumption..|].
           change (fe :: fr_sent (f_run F k (map Some es) st' (buf ++ pushed) shut)) with ([fe] ++ fr_sent (f_run F k (map Some es) st' (buf ++ pushed) shut)).
           rewrite flush_indices_app, (Ke fe Logic.eq_refl). cbn [app]. auto.
        -- destruct (IH st' [] shut E O G' Logic.eq_refl M D I H) as (A1 & A2 & A3). rewrite !flush_indices_app, B, Kp. cbn [app]. auto.
Qed.
End Filter.

Lemma handed_run `{Q : QLib} F st k es : hands_pulses F st -> steady [] (flush_indices es) ->
  let r := f_run F k (map Some es) st [] 0 in
  steady [] (flush_indices (fr_sent r)) /\ incl (flush_indices (fr_sent r)) (flush_indices es) /\
  (fr_rest r = [] -> forall m, (0 < m)%N -> In m (flush_indices es) -> In m (flush_indices (fr_sent r))).
Proof.
  intros (good & mark & G & M & H) Hs. destruct (run_steady F good mark H k es st [] 0 [] [] G Logic.eq_refl (or_introl M)) as (A & B & C); auto.
  split; [exact A|]. split; [exact B|]. intros Hr m Hm Hin. specialize (C Hr m Hm Hin). rewrite app_nil_r, <- in_rev in C. exact C.
Qed.
(** no filter hands on an index it never got, steady or not *)
Lemma handed_bound `{Q : QLib} F st k es B : hands_pulses F st -> (forall n, In n (flush_indices es) -> (n <= B)%N) ->
  forall n, In n (flush_indices (fr_sent (f_run F k (map Some es) st [] 0))) -> (n <= B)%N.
Proof.
  intros (good & mark & G & _ & H).
  assert (Gen : forall es st buf shut, good st -> flush_indices buf = [] -> incl (flush_indices (fr_sent (f_run F k (map Some es) st buf shut))) (flush_indices es)).
  { clear - H. induction es as [|e es IH]; intros st buf shut G Bu; [apply incl_refl|]. destruct (is_shutdown e) eqn:Es.
    - destruct e; try discriminate Es. cbn [map f_run]. destruct (k <=? shut + 1); cbn [fr_sent]; [intros m []|exact (IH st buf (shut + 1) G Bu)].
    - assert (K := H st e G Es).
      assert (R : fr_sent (f_run F k (map Some (e :: es)) st buf shut) =
        (let '(st', pushed, err) := f_process F st e in
         match err with
         | None => (buf ++ pushed) ++ fr_sent (f_run F k (map Some es) st' [] shut)
         | Some fe => [fe] ++ fr_sent (f_run F k (map Some es) st' (buf ++ pushed) shut)
         end)) by (destruct e; try discriminate Es; cbn [map f_run]; destruct (f_process F st _) as [[? ?] [?|]]; reflexivity).
      rewrite R. clear R. destruct (f_process F st e) as [[st' pushed] err]. destruct K as (G' & Ke & K). change (e :: es) with ([e] ++ es). rewrite (flush_indices_app [e]).
      destruct err as [fe|]; rewrite !flush_indices_app, ?Bu, ?(Ke _ Logic.eq_refl); cbn [app].
      + apply incl_appr, IH; [exact G'|]. rewrite flush_indices_app, Bu. destruct e; try (destruct K as [_ K]; exact K); destruct K as [[=] _].
      + apply incl_app; [|apply incl_appr, IH; [exact G'|reflexivity]]. apply incl_appl.
        destruct e as [| |n| |]; try (destruct K as [_ ->]; intros m []). destruct K as (_ & _ & [-> |[-> _]]); [apply incl_refl|intros m []]. }
  intros Hb n Hn. apply Hb. exact (Gen es st [] 0 G Logic.eq_refl n Hn).
Qed.

Lemma way_leads g u via d : way g u via d -> leads g d u.
Proof. induction 1 as [u d Hu|u f via d Hu Hf Hwy IH]; [eapply leads_on; [exact Hu|apply leads_there]|eapply leads_on; [exact Hu|exact IH]]. Qed.
Section Net.
Context `{Q : QLib} {S : Type}.
Variable proc : string -> S -> event -> S * list event * option event.
Variable st0 : string -> S.
Variable fint : string -> option N.
Variable g : config.
Variable t : started.
Hypothesis Hd : distinct_ids g.
Hypothesis Hw : wire g = Going t.
Variable d : string.
Hypothesis Hh : handed proc st0 g d.
Let W : wf t := wired_wf g t Hd Hw.

Definition kept_to (tr : list (@label Q)) : Prop := forall u v n, leads g d v -> ~ In (LCopy u v (ETimerFlush n) false) tr.
Lemma kept_attempts tr w v : kept_to tr -> leads g d v -> flush_indices (arrived_from w v tr) = flush_indices (attempts w v tr).
Proof.
  intros K L. induction tr as [|a tr IH]; [reflexivity|]. unfold arrived_from, attempts in *. cbn [flat_map]. rewrite !flush_indices_app, IH by (intros u v' n Hv Hin; apply (K u v' n Hv); right; exact Hin).
  f_equal. destruct a as [| | |u' d' e [|]| |]; try reflexivity. destruct (weqb w u' && seqb v d') eqn:E; [|reflexivity]. apply andb_prop in E as [_ E]. apply seqb_eq in E. subst d'.
  destruct e as [| |n| |]; try reflexivity. exfalso. exact (K u' v n L (or_introl Logic.eq_refl)).
Qed.
Lemma pulse_indices a : flush_indices (map pulse_event a) = map (fun i => (N.of_nat i mod 2 ^ 64)%N) a.
Proof. induction a as [|a r IH]; [reflexivity|cbn; f_equal; exact IH]. Qed.
Definition orderly_at (tr : list (@label Q)) (v : string) : Prop :=
  steady [] (flush_indices (arrived v tr)) /\ forall n, In n (flush_indices (arrived v tr)) -> (n <= N.of_nat (pulses tr))%N.
(** what a thread that sends to [v] has to say, if all was well so far *)
Lemma said_steady tr s w v : nrun proc st0 fint t tr s -> leads g d v -> (forall v, leads g d v -> orderly_at tr v) -> mem v (sends_of t w) = true ->
  steady [] (flush_indices (said proc st0 t tr w)) /\ forall n, In n (flush_indices (said proc st0 t tr w)) -> (n <= N.of_nat (pulses tr))%N.
Proof.
  intros R L I M. destruct w as [id k|id|]; cbn [said].
  - assert (E : flush_indices (emitted id k tr) = []).
    { destruct (flush_indices (emitted id k tr)) as [|n r] eqn:E; [reflexivity|]. assert (Hin : In n (flush_indices (emitted id k tr))) by (rewrite E; left; reflexivity).
      apply in_flush in Hin. destruct (emits_payload proc st0 fint t tr s R id k _ Hin) as [H|H]; discriminate H. }
    rewrite E. split; [exact Logic.I|intros n []].
  - destruct (sends_upstream g t Hd Hw (Fil id) v M) as [[=]|(u & T & U)]. cbn in T. subst u.
    cbn in M. destruct (alookup seqb id (t_filters t)) as [[srcs sends]|] eqn:El; [|discriminate M].
    destruct (filter_lookup g t Hd Hw _ _ _ El) as (fw & Hf & _). assert (Lf : leads g d id) by (eapply leads_on; eassumption).
    destruct (I id Lf) as [I1 I2]. rewrite (i_queue _ _ _ _ _ _ (inv_run _ _ _ _ _ _ W R)), flush_indices_app in I1, I2. apply steady_app in I1 as [I1 _].
    assert (Hp := Hh id (in_map fst _ _ Hf) Lf). split.
    + exact (proj1 (handed_run _ _ (List.length srcs) (polled id tr) Hp I1)).
    + apply (handed_bound _ _ (List.length srcs) (polled id tr) _ Hp). intros n Hn. apply I2, in_or_app. auto.
  - rewrite pulse_indices. split; [apply steady_seq|]. intros n Hn. apply in_map_iff in Hn as (a & <- & Ha). apply in_seq in Ha.
    eapply N.le_trans; [apply N.mod_le; discriminate|]. lia.
Qed.
Lemma arrivals_orderly tr s : nrun proc st0 fint t tr s -> kept_to tr -> forall v, leads g d v -> orderly_at tr v.
Proof.
  induction 1 as [|tr s a s' R IH St]; intros K v L; [split; [exact Logic.I|intros n []]|].
  assert (K0 : kept_to tr) by (intros u v' n Hv Hin; apply (K u v' n Hv), in_or_app; auto). specialize (IH K0).
  assert (Pm : (pulses tr <= pulses (tr ++ [a]))) by (unfold pulses; rewrite filter_app, app_length; lia).
  assert (Same : flush_indices (arrived v [a]) = [] -> orderly_at (tr ++ [a]) v).
  { intros E. unfold orderly_at. rewrite arrived_snoc, flush_indices_app, E, app_nil_r. destruct (IH v L) as [A B]. split; [exact A|]. intros n Hn. specialize (B n Hn). lia. }
  destruct a as [id k e|id| |w dd e ok|dd e|dd o]; try (apply Same; reflexivity). destruct ok; [|apply Same; reflexivity].
  destruct (seqb v dd) eqn:Ev; [|apply Same; cbn; rewrite Ev; reflexivity]. apply seqb_eq in Ev. subst dd.
  destruct e as [m|ll|n| |r]; try (apply Same; cbn; rewrite seqb_refl'; reflexivity).
  inversion St as [| | |u' d' e' r' ok' Ho| | |]; subst.
  assert (Ln := i_link _ _ _ _ _ _ (inv_run _ _ _ _ _ _ W R) w v). rewrite Ho in Ln. cbn [pend flat_map fst snd] in Ln. rewrite seqb_refl' in Ln.
  destruct (mem v (sends_of t w)) eqn:Em; [|apply app_eq_nil in Ln as [_ Ln]; discriminate Ln].
  destruct (said_steady tr s w v R L IH Em) as [A B]. rewrite <- Ln, !flush_indices_app in A, B. cbn [app flush_indices flat_map] in A, B.
  apply steady_app in A as [_ [A _]]. destruct (IH v L) as [C D].
  unfold orderly_at. rewrite arrived_snoc, flush_indices_app. cbn [arrived flat_map]. rewrite seqb_refl'. cbn [app flush_indices flat_map]. split.
  - apply steady_app. split; [exact C|]. cbn [steady]. split; [|exact Logic.I]. intros m Hm. specialize (A m Hm). rewrite app_nil_r, <- in_rev in *.
    fold (flush_indices (attempts w v tr)) in A. rewrite <- (kept_attempts tr w v K0 L) in A. apply in_flush in A. apply in_flush. exact (arrived_in _ _ _ _ A).
  - intros m Hm. apply in_app_or in Hm as [Hm|[<-|[]]]; [specialize (D m Hm); lia|]. specialize (B n). assert (n <= N.of_nat (pulses tr))%N by (apply B, in_or_app; right; left; reflexivity). lia.
Qed.
Variable x : nat -> @net Q S.
Variable l : nat -> option (@label Q).
Hypothesis Hx : execution proc st0 fint t x l.
Hypothesis F : fair g x l.
Hypothesis K : pulses_kept g l d.
Local Notation tr := (before l).
Lemma kept_before i : kept_to (tr i).
Proof.
  induction i as [|i IH]; intros u v n L H; [contradiction|]. cbn [before] in H. apply in_app_or in H as [H|H]; [exact (IH u v n L H)|].
  destruct (l i) as [a|] eqn:E; [|contradiction]. destruct H as [->|[]]. exact (K i u v n L E).
Qed.
Let run i := run_before proc st0 fint t x l Hx i.
Lemma pulse_arrives w v n i : leads g d v -> mem v (sends_of t w) = true -> (forall j, i <= j -> In (ETimerFlush n) (said proc st0 t (tr j) w)) ->
  exists j, i <= j /\ In (ETimerFlush n) (arrived v (tr j)).
Proof.
  intros L M H. destruct (sent_all proc st0 fint g t Hd Hw x l Hx F w v i) as (j & Hj & E). rewrite M in E. exists j. split; [exact Hj|].
  apply (arrived_in w). apply in_flush. rewrite (kept_attempts _ _ _ (kept_before j) L), E. apply in_flush. exact (H j Hj).
Qed.
(** a due pulse that is said flushes the sink at the end of the way *)
Lemma pulse_way n u via : (0 < n)%N -> way g u via d -> In d (g_sinks g) ->
  forall i w, (forall v, upstream g u v -> mem v (sends_of t w) = true) -> (forall j, i <= j -> In (ETimerFlush n) (said proc st0 t (tr j) w)) ->
  exists j, i <= j /\ ((exists v, In v (via ++ [d]) /\ halted g (x j) v) \/
    (sr_hand (n_sink (x j) d) = None /\ In n (flush_indices (polled d (tr j))))).
Proof.
  intros Hn Hwy. assert (E0 : exists d0, d0 = d) by eauto. destruct E0 as (d0 & E0). rewrite <- E0 in Hwy. revert E0.
  induction Hwy as [u d1 Hu|u f via d1 Hu Hf Hwy IH]; intros -> Hk i w Hm Hs.
  - destruct (pulse_arrives w d n i (leads_there g d) (Hm d Hu) Hs) as (j & Hj & Ha).
    destruct (sink_gets proc st0 fint g t Hd Hw x l Hx F d j Hk) as (j2 & Hj2 & [H|[Hha (m & E)]]); exists j2; (split; [lia|]).
    + left. exists d. split; [left; reflexivity|right; auto].
    + right. split; [exact Hha|]. apply in_flush. rewrite E. apply in_or_app. auto.
  - assert (Lf := way_leads _ _ _ _ Hwy). destruct (pulse_arrives w f n i Lf (Hm f Hu) Hs) as (j & Hj & Ha).
    destruct (filter_gets proc st0 fint g t Hd Hw x l Hx F f j Hf) as (j2 & Hj2 & [H|(m & E)]).
    + exists j2. split; [lia|]. left. exists f. split; [left; reflexivity|left; auto].
    + destruct (IH Logic.eq_refl Hk j2 (Fil f)) as (j3 & Hj3 & Hr).
      * intros v Hv. apply (upstream_sends g t Hd Hw (Fil f) f v); [reflexivity|exact Hv|exact Hf].
      * intros k Hk2. cbn [said]. destruct (filter_found g t Hd Hw f Hf) as (sources & sends & El). rewrite El.
        assert (I := inv_run _ _ _ _ _ _ W (run k)). destruct (i_filter _ _ _ _ _ _ I f sources sends El) as [_ Hrest].
        destruct (arrivals_orderly _ _ (run k) (kept_before k) f Lf) as [A _]. rewrite (i_queue _ _ _ _ _ _ I), flush_indices_app in A. apply steady_app in A as [A _].
        destruct (handed_run _ _ (List.length sources) (polled f (tr k)) (Hh f Hf Lf) A) as (_ & _ & C).
        apply in_flush. apply (C Hrest n Hn). apply in_flush. apply (polled_later l f _ j2 k Hk2). rewrite E. apply in_or_app. auto.
      * exists j3. split; [lia|]. destruct Hr as [(v & Hv & Hha)|Hr]; [left|right; exact Hr]. exists v. split; [right; exact Hv|exact Hha].
Qed.
Lemma flushed_way k n u via : In u (map fst (g_natives g ++ g_sources g)) -> way g u via d -> In d (g_sinks g) -> timer_goes l ->
  fint d = Some k -> ((k =? 0)%N || (n mod k =? 0)%N) = true -> (0 < n < 2 ^ 64)%N ->
  forall i, exists j, i <= j /\ ((exists v, In v (via ++ [d]) /\ halted g (x j) v) \/ In n (timer_flushes (sr_calls (n_sink (x j) d)))).
Proof.
  intros Hu Hwy Hk T Hfi Hdue [Hn0 Hn] i. destruct (pulses_grow l T (N.to_nat n)) as (j0 & Hp).
  destruct (pulse_way n u via Hn0 Hwy Hk (i + j0) Tim) as (j & Hj & H).
  - intros v Hv. apply mem_In. cbn. apply (proj2 (C51_timer g t Hd Hw) v). destruct Hv as (fw & Hin & Hv). exists u, fw. split; [|exact Hv].
    unfold senders_of in Hin. apply in_app_or in Hin as [Hin|Hin]; [|exact Hin].
    destruct (sender_kind g Hd u fw) as [[_ No]|[_ No]]; [unfold senders_of; apply in_or_app; auto|contradiction|]. exfalso. exact (No (in_map fst _ _ Hin)).
  - intros j Hj. cbn [said]. apply in_flush. rewrite pulse_indices. apply in_map_iff. exists (N.to_nat n). rewrite N2Nat.id. split; [apply N.mod_small; exact Hn|].
    apply in_seq. pose proof (pulses_mono l j0 j ltac:(lia)). lia.
  - exists j. split; [lia|]. destruct H as [H|[Hha H]]; [auto|right].
    destruct (sink_found g t Hd Hw d Hk) as (sources & El). assert (I := inv_run _ _ _ _ _ _ W (run j)). destruct (i_sink _ _ _ _ _ _ I d sources El) as [Kq (ms & Km & Ka)].
    destruct (sink_seen (List.length sources) (fint d) ms sink_start [] (sink_seen_start (fint d))) as (seen & (_ & _ & Hc) & E).
    cbn [flush_indices flat_map app sink_start in_hand sr_hand sr_queue] in E. fold (sink_exec (List.length sources) (fint d) ms sink_start) in Hc, E. rewrite <- Km in Hc, E. rewrite Kq, app_nil_r, Ka in E.
    unfold in_hand in E. rewrite Hha in E. cbn in E. rewrite app_nil_r in E. rewrite Hc, E, Hfi.
    destruct (arrivals_orderly _ _ (run j) (kept_before j) d (leads_there g d)) as [A _]. rewrite (i_queue _ _ _ _ _ _ I), flush_indices_app in A. apply steady_app in A as [A _].
    destruct (steady_first _ n A Hn0 H) as (l1 & l2 & El2 & Hl). change (flat_map _ (polled d (tr j))) with (flush_indices (polled d (tr j))). rewrite El2.
    apply due_in; auto. intros j' [].
Qed.
(** no flush is ahead of the timer *)
Lemma flush_ahead i n : In d (g_sinks g) -> In n (timer_flushes (sr_calls (n_sink (x i) d))) -> (n <= N.of_nat (pulses (tr i)))%N.
Proof.
  intros Hk Hin. destruct (sink_found g t Hd Hw d Hk) as (sources & El). assert (I := inv_run _ _ _ _ _ _ W (run i)). destruct (i_sink _ _ _ _ _ _ I d sources El) as [Kq (ms & Km & Ka)].
  destruct (sink_seen (List.length sources) (fint d) ms sink_start [] (sink_seen_start (fint d))) as (seen & (_ & _ & H) & E).
  cbn [flush_indices flat_map app sink_start in_hand sr_hand sr_queue] in E. fold (sink_exec (List.length sources) (fint d) ms sink_start) in H, E. rewrite <- Km in H, E. rewrite Ka in E.
  assert (D : forall a earlier, In n (due (fint d) earlier a) -> In n a).
  { induction a as [|b a IH]; intros earlier Ha; [exact Ha|]. cbn [due] in Ha. apply in_app_or in Ha as [Ha|Ha]; [|right; eapply IH; exact Ha].
    destruct (fint d); [|contradiction]. destruct (forallb _ _ && _); [|contradiction]. destruct Ha as [->|[]]. left. reflexivity. }
  rewrite H in Hin. apply D in Hin. apply (proj2 (arrivals_orderly _ _ (run i) (kept_before i) d (leads_there g d)) n).
  rewrite (i_queue _ _ _ _ _ _ I), flush_indices_app. apply in_or_app. left. rewrite <- E. apply in_or_app. auto.
Qed.
End Net.
