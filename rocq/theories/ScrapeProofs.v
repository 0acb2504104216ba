(** * Proofs about scrapes *)
From Verif Require Import Base BaseFacts TelemetryProofs TelemetryModel FiltersModel WavefrontModel BucketsSpec PrometheusModel PrometheusSpec PrometheusProofs ScrapeModel ScrapeSpec.
Open Scope string_scope. Open Scope list_scope. Open Scope nat_scope.
Section Proofs.
Context `{Q : QLib}.
Variable show_f : f64 -> string.
Variable show_n : N -> string.
Variable cap : N.
Variable default : tagmap.
Variable age : option N.
Variable gzip : option (string -> string).
Variable shuffle : nat -> list telemetry -> list telemetry.
Notation step := (sc_step show_f show_n default age gzip shuffle).
Notation run := (sc_run show_f show_n default age gzip shuffle).
Notation start := (sc_start cap).

Lemma run_app ms1 ms2 : forall s, run (ms1 ++ ms2) s = match run ms1 s with Some s' => run ms2 s' | None => None end.
Proof. induction ms1 as [|m r IH]; intros s; [reflexivity|]. cbn. destruct (step s m); [apply IH|reflexivity]. Qed.
Lemma run_snoc ms m s : run (ms ++ [m]) s = match run ms s with Some s' => step s' m | None => None end.
Proof. rewrite run_app. destruct (run ms s) as [s'|]; [cbn; destruct (step s' m); reflexivity|reflexivity]. Qed.

Lemma ops_app a b : ops_of (a ++ b) = ops_of a ++ ops_of b. Proof. apply flat_map_app. Qed.
Lemma taken_app a b : taken (a ++ b) = taken a ++ taken b. Proof. apply flat_map_app. Qed.
Lemma closed_app a b : closed (a ++ b) = closed a ++ closed b. Proof. apply flat_map_app. Qed.
Lemma told_app a b : told (a ++ b) = told a ++ told b. Proof. apply flat_map_app. Qed.
Lemma arrivals_app a b : arrivals (a ++ b) = arrivals a ++ arrivals b. Proof. apply flat_map_app. Qed.
Lemma responses_app k a b : responses k (a ++ b) = responses k a + responses k b.
Proof. unfold responses. rewrite flat_map_app, app_length. reflexivity. Qed.
Lemma full_app a b : full_answers (a ++ b) = full_answers a + full_answers b.
Proof. unfold full_answers. rewrite flat_map_app, app_length. reflexivity. Qed.

Lemma pa_run_snoc ops o : forall a a' bs x, pa_run ops a = Some (a', bs) -> pop_apply o a' = Some x -> exists bs', pa_run (ops ++ [o]) a = Some (x, bs').
Proof.
  induction ops as [|p r IH]; intros a a' bs x H1 H2.
  - injection H1 as <- <-. destruct o as [t|now]; cbn in *.
    + destruct (pa_insert a t) as [[y b]|]; [|discriminate]. injection H2 as <-. eauto.
    + injection H2 as <-. eauto.
  - destruct p as [t|now]; cbn [app pa_run] in *.
    + destruct (pa_insert a t) as [[y b]|]; [|discriminate]. destruct (pa_run r y) as [[z cs]|] eqn:E; [|discriminate]. injection H1 as <- <-.
      destruct (IH _ _ _ _ E H2) as [bs' ->]. eauto.
    + eauto.
Qed.

(** ** the invariant *)
Definition busy (p : vphase) : list nat := match p with VTaken r | VWrites r | VBuffer r _ => [r] | _ => [] end.
(** [l]: what happened up to the answer to [r] *)
Definition snapshot (l : list happening) (r : nat) (body : string) : Prop :=
  exists l1 l2 l3 a bs ts text, l = l1 ++ EvTaken r :: l2 ++ l3 /\ no_taken l2 /\ no_taken l3 /\
    pa_run (ops_of (l1 ++ l2)) (pa_new cap) = Some (a, bs) /\ pa_reportable a = Some ts /\
    write_text show_f show_n default (shuffle r ts) = Some text /\ body = body_of gzip text.
Definition phase_ok (s : scrape) : Prop :=
  match sc_server s with
  | VTaken r | VWrites r => exists l1 l2, sc_log s = l1 ++ EvTaken r :: l2 /\ no_taken l2
  | VBuffer r body => (exists l1 l2, sc_log s = l1 ++ EvTaken r :: l2 /\ no_taken l2) /\ (body = "" \/ snapshot (sc_log s) r body)
  | _ => True
  end.
Definition answers_ok (log : list happening) : Prop :=
  forall l r h body sent l', log = l ++ EvAnswer r (A200 h body sent) :: l' -> snapshot l r body /\ h = headers gzip /\ body <> "".
Record inv (ms : list smove) (s : scrape) : Prop := mkInv {
  i_agg : exists bs, pa_run (ops_of (sc_log s)) (pa_new cap) = Some (sc_agg s, bs);
  i_lock : match sc_lock s with
           | LFree => (forall o, sc_sink s <> SHolds o) /\ (forall r, sc_server s <> VWrites r)
           | LSink => (exists o, sc_sink s = SHolds o) /\ (forall r, sc_server s <> VWrites r)
           | LServer => (forall o, sc_sink s <> SHolds o) /\ (exists r, sc_server s = VWrites r)
           end;
  i_told : exists p, map pop_of (filter (in_age age) (told ms)) = ops_of (sc_log s) ++ p /\
           match sc_sink s with SWants o | SHolds o => p = [pop_of o] | SPanic => List.length p <= 1 | _ => p = [] end;
  i_queue : arrivals ms = taken (sc_log s) ++ sc_queue s;
  i_busy : taken (sc_log s) = closed (sc_log s) ++ busy (sc_server s);
  i_phase : phase_ok s;
  i_answers : answers_ok (sc_log s);
  i_counts : sc_success s = N.of_nat (responses true (sc_log s)) /\ sc_error s = N.of_nat (responses false (sc_log s));
}.

Lemma answers_snoc log e : answers_ok log -> match e with EvAnswer r (A200 h body sent) => snapshot log r body /\ h = headers gzip /\ body <> "" | _ => True end -> answers_ok (log ++ [e]).
Proof.
  intros H He l r h body sent l' E. destruct l' as [|x l' _] using rev_ind.
  - apply app_inj_tail in E as [-> ->]. exact He.
  - change (l ++ EvAnswer r (A200 h body sent) :: l' ++ [x]) with (l ++ (EvAnswer r (A200 h body sent) :: l') ++ [x]) in E. rewrite app_assoc in E.
    apply app_inj_tail in E as [E _]. eapply H. exact E.
Qed.
Lemma snapshot_snoc log e r body : snapshot log r body -> no_taken [e] -> snapshot (log ++ [e]) r body.
Proof.
  intros (l1 & l2 & l3 & a & bs & ts & text & -> & H2 & H3 & H4) He. exists l1, l2, (l3 ++ [e]), a, bs, ts, text. split; [|split; [assumption|split; [|exact H4]]].
  - rewrite <- !app_assoc. cbn. rewrite <- app_assoc. reflexivity.
  - unfold no_taken in *. rewrite taken_app, H3, He. reflexivity.
Qed.
Lemma since_snoc log e r : (exists l1 l2, log = l1 ++ EvTaken r :: l2 /\ no_taken l2) -> no_taken [e] -> exists l1 l2, log ++ [e] = l1 ++ EvTaken r :: l2 /\ no_taken l2.
Proof. intros (l1 & l2 & -> & H) He. exists l1, (l2 ++ [e]). split; [rewrite <- app_assoc; reflexivity|]. unfold no_taken in *. rewrite taken_app, H, He. reflexivity. Qed.
Lemma phase_snoc (s : scrape) e p : (sc_server s = p -> phase_ok s) -> no_taken [e] ->
  match p with
  | VTaken r | VWrites r => (exists l1 l2, sc_log s = l1 ++ EvTaken r :: l2 /\ no_taken l2) -> (exists l1 l2, sc_log s ++ [e] = l1 ++ EvTaken r :: l2 /\ no_taken l2)
  | _ => True
  end.
Proof. intros _ He. destruct p; auto; intros H; apply since_snoc; assumption. Qed.

Ltac proj := cbn [with_sink with_server with_lock with_event poison sc_agg sc_lock sc_poisoned sc_sink sc_server sc_queue sc_signal sc_log sc_success sc_error].
Ltac proj_in H := cbn [with_sink with_server with_lock with_event poison sc_agg sc_lock sc_poisoned sc_sink sc_server sc_queue sc_signal sc_log sc_success sc_error] in H.

Lemma inv_start : inv [] start.
Proof.
  constructor; unfold sc_start; proj; cbn; auto.
  - eauto.
  - split; intros ? H; discriminate.
  - exists []. auto.
  - intros l r h b st l' E. destruct l; discriminate.
Qed.

Lemma told_snoc ms m : told (ms ++ [m]) = told ms ++ match m with MTold o => [o] | _ => [] end.
Proof. rewrite told_app. cbn. destruct m; reflexivity. Qed.
Lemma arrivals_snoc ms m : arrivals (ms ++ [m]) = arrivals ms ++ match m with MArrives r => [r] | _ => [] end.
Proof. rewrite arrivals_app. cbn. destruct m; reflexivity. Qed.

Lemma inv_step ms s m s' : inv ms s -> step s m = Some s' -> inv (ms ++ [m]) s'.
Proof.
  intros [Ia Il It Iq Ib Ip Ian Ic] E.
  destruct m as [o| | | |r|fails|fails| | |sent]; cbn [sc_step] in E.
  - (* told *)
    destruct (sc_sink s) eqn:Es; try discriminate. destruct (in_age age o) eqn:Eo; injection E as <-;
      (constructor; proj; rewrite ?told_snoc, ?arrivals_snoc, ?app_nil_r; auto).
    + destruct (sc_lock s); repeat split; try tauto; try (intros; discriminate). destruct Il as [[o' H] _]. congruence.
    + destruct It as (p & Hp & ->). rewrite filter_app, map_app, Hp, app_nil_r. cbn [filter]. rewrite Eo. exists [pop_of o]. split; reflexivity.
    + rewrite Es. exact Il.
    + destruct It as (p & Hp & ->). rewrite filter_app, map_app, Hp, app_nil_r. cbn [filter]. rewrite Eo. exists []. rewrite Es. split; [cbn; rewrite !app_nil_r; reflexivity|reflexivity].
  - (* lock *)
    destruct (sc_sink s) as [|o|o| | |] eqn:Es; try discriminate. destruct (sc_lock s) eqn:El; try discriminate.
    destruct (sc_poisoned s); injection E as <-; constructor; proj; rewrite ?told_snoc, ?arrivals_snoc, ?app_nil_r; auto.
    + rewrite El. split; [intros; discriminate|tauto].
    + destruct It as (p & Hp & ->). exists [pop_of o]. auto.
    + split; [eauto|tauto].
  - (* apply *)
    destruct (sc_sink s) as [|o|o| | |] eqn:Es; try discriminate.
    destruct (sc_lock s) eqn:El; [destruct Il as [H _]; exfalso; apply (H o); reflexivity| |destruct Il as [H _]; exfalso; apply (H o); reflexivity].
    destruct (pop_apply (pop_of o) (sc_agg s)) as [a|] eqn:Ea; injection E as <-; constructor; proj; rewrite ?told_snoc, ?arrivals_snoc, ?app_nil_r; auto.
    + destruct Ia as [bs Hr]. rewrite ops_app. cbn. eapply pa_run_snoc; eassumption.
    + split; [destruct o; intros; discriminate|tauto].
    + destruct It as (p & Hp & ->). exists []. rewrite app_nil_r, ops_app. split; [exact Hp|]. destruct o; reflexivity.
    + rewrite taken_app. cbn. rewrite app_nil_r. exact Iq.
    + rewrite taken_app, closed_app. cbn. rewrite !app_nil_r. exact Ib.
    + unfold phase_ok in *; proj. destruct (sc_server s); auto.
      * apply since_snoc; [assumption|reflexivity].
      * apply since_snoc; [assumption|reflexivity].
      * destruct Ip as [H1 H2]. split; [apply since_snoc; [assumption|reflexivity]|]. destruct H2 as [H2|H2]; [left; assumption|right; apply snapshot_snoc; [assumption|reflexivity]].
    + apply answers_snoc; [assumption|exact Logic.I].
    + rewrite !responses_app. cbn. rewrite !Nat.add_0_r. exact Ic.
    + split; [intros; discriminate|tauto].
    + destruct It as (p & Hp & ->). exists [pop_of o]. split; [exact Hp|cbn; lia].
  - (* join *)
    destruct (sc_sink s) eqn:Es; try discriminate. destruct (sc_server s) eqn:Ev; try discriminate; injection E as <-;
      (constructor; proj; rewrite ?told_snoc, ?arrivals_snoc, ?app_nil_r; auto).
    + destruct (sc_lock s); rewrite Ev; repeat split; try (intros; discriminate); destruct Il as [H1 H2]; [destruct H1; congruence|exact H2].
    + rewrite Ev. exact Ib.
    + destruct (sc_lock s); rewrite Ev; repeat split; try (intros; discriminate); destruct Il as [H1 H2]; [destruct H1; congruence|exact H2].
    + destruct It as (p & Hp & ->). exists []. split; [exact Hp|cbn; lia].
    + rewrite Ev. exact Ib.
  - (* arrives *)
    injection E as <-. constructor; proj; rewrite ?told_snoc, ?arrivals_snoc, ?app_nil_r; auto. rewrite Iq, app_assoc. reflexivity.
  - (* poll *)
    destruct (sc_server s) eqn:Ev; try discriminate. injection E as <-. constructor; proj; rewrite ?told_snoc, ?arrivals_snoc, ?app_nil_r; auto.
    + destruct (sc_lock s); [|split; [tauto|]|destruct Il as [_ [? H]]; congruence]; try (split; [tauto|]); intros r; destruct fails; [|destruct (sc_signal s)| |destruct (sc_signal s)]; discriminate.
    + rewrite Ib. destruct fails; [|destruct (sc_signal s)]; reflexivity.
    + unfold phase_ok; proj. destruct fails; [|destruct (sc_signal s)]; exact Logic.I.
  - (* recv *)
    destruct (sc_server s) eqn:Ev; try discriminate.
    assert (HL : forall p : vphase, (forall r, p <> VWrites r) -> match sc_lock s with
           | LFree => (forall o, sc_sink s <> SHolds o) /\ (forall r, p <> VWrites r)
           | LSink => (exists o, sc_sink s = SHolds o) /\ (forall r, p <> VWrites r)
           | LServer => (forall o, sc_sink s <> SHolds o) /\ (exists r, p = VWrites r) end).
    { intros p Hp. destruct (sc_lock s); [split; [tauto|exact Hp]|split; [tauto|exact Hp]|]. destruct Il as [_ [? H]]. discriminate. }
    destruct fails; [injection E as <-; constructor; proj; rewrite ?told_snoc, ?arrivals_snoc, ?app_nil_r; auto; [apply HL; intros; discriminate|rewrite Ib; apply app_nil_r|exact Logic.I]|].
    destruct (sc_queue s) as [|r q] eqn:Eq; injection E as <-; constructor; proj; rewrite ?told_snoc, ?arrivals_snoc, ?app_nil_r; auto.
    + apply HL. intros; discriminate.
    + rewrite Eq. exact Iq.
    + rewrite Ib. apply app_nil_r.
    + exact Logic.I.
    + rewrite ops_app. cbn. rewrite app_nil_r. exact Ia.
    + apply HL. intros; discriminate.
    + rewrite ops_app. cbn. rewrite app_nil_r. exact It.
    + rewrite taken_app, Iq, <- app_assoc. reflexivity.
    + rewrite taken_app, closed_app, Ib. cbn. rewrite !app_nil_r. reflexivity.
    + unfold phase_ok; proj. exists (sc_log s), []. split; reflexivity.
    + apply answers_snoc; [assumption|exact Logic.I].
    + rewrite !responses_app. cbn. rewrite !Nat.add_0_r. exact Ic.
  - (* try *)
    destruct (sc_server s) as [| |r| | | |] eqn:Ev; try discriminate. injection E as <-.
    destruct (sc_lock s) eqn:El; [destruct (sc_poisoned s) eqn:Epo| |]; constructor; proj; rewrite ?told_snoc, ?arrivals_snoc, ?app_nil_r; auto.
    + rewrite El. split; [tauto|intros; discriminate].
    + unfold phase_ok in *; proj. rewrite Ev in Ip. auto.
    + split; [tauto|eauto].
    + unfold phase_ok in *; proj. rewrite Ev in Ip. auto.
    + rewrite El. split; [tauto|intros; discriminate].
    + unfold phase_ok in *; proj. rewrite Ev in Ip. auto.
    + destruct Il as [_ [? H]]. discriminate.
    + unfold phase_ok in *; proj. rewrite Ev in Ip. auto.
  - (* write *)
    destruct (sc_server s) as [| | |r| | |] eqn:Ev; try discriminate. injection E as <-.
    destruct (sc_lock s) eqn:El; [destruct Il as [_ H]; exfalso; apply (H r); reflexivity|destruct Il as [_ H]; exfalso; apply (H r); reflexivity|].
    unfold phase_ok in Ip. rewrite Ev in Ip.
    destruct (expose show_f show_n default shuffle r (sc_agg s)) as [text|] eqn:Ex; constructor; proj; rewrite ?told_snoc, ?arrivals_snoc, ?app_nil_r; auto.
    + split; [tauto|intros; discriminate].
    + unfold phase_ok; proj. split; [exact Ip|]. right. destruct Ip as (l1 & l2 & El' & Hn). destruct Ia as [bs Hr]. rewrite El' in *.
      unfold expose in Ex. destruct (pa_reportable (sc_agg s)) as [ts|] eqn:Er; [|discriminate].
      exists l1, l2, [], (sc_agg s), bs, ts, text. rewrite app_nil_r. repeat (split; [first [reflexivity|assumption]|]). split; [|split; [assumption|split; [assumption|reflexivity]]].
      rewrite ops_app in Hr |- *. exact Hr.
    + rewrite ops_app. cbn. rewrite app_nil_r. exact Ia.
    + split; [tauto|intros; discriminate].
    + rewrite ops_app. cbn. rewrite app_nil_r. exact It.
    + rewrite taken_app. cbn. rewrite app_nil_r. exact Iq.
    + rewrite taken_app, closed_app, Ib. cbn. rewrite <- !app_assoc. reflexivity.
    + exact Logic.I.
    + apply answers_snoc; [assumption|exact Logic.I].
    + rewrite !responses_app. cbn. rewrite !Nat.add_0_r. exact Ic.
  - (* respond *)
    destruct (sc_server s) as [| | | |r body| |] eqn:Ev; try discriminate. injection E as <-.
    unfold phase_ok in Ip. rewrite Ev in Ip. destruct Ip as [Hs Hb].
    assert (HL : match sc_lock s with
           | LFree => (forall o, sc_sink s <> SHolds o) /\ (forall r, VPoll <> VWrites r)
           | LSink => (exists o, sc_sink s = SHolds o) /\ (forall r, VPoll <> VWrites r)
           | LServer => (forall o, sc_sink s <> SHolds o) /\ (exists r, VPoll = VWrites r) end).
    { destruct (sc_lock s); [split; [tauto|intros; discriminate]|split; [tauto|intros; discriminate]|]. destruct Il as [_ [? H]]. discriminate. }
    destruct (seqb body "") eqn:Eb; constructor; proj; rewrite ?told_snoc, ?arrivals_snoc, ?app_nil_r; auto.
    all: try (rewrite ops_app; cbn; rewrite app_nil_r; first [exact Ia|exact It]).
    all: try (rewrite taken_app; cbn; rewrite app_nil_r; exact Iq).
    all: try (rewrite taken_app, closed_app, Ib; cbn; rewrite <- !app_assoc; reflexivity).
    all: try exact Logic.I.
    + apply answers_snoc; [assumption|exact Logic.I].
    + rewrite !responses_app. cbn. rewrite !Nat.add_0_r. exact Ic.
    + apply answers_snoc; [assumption|]. destruct Hb as [->|Hb]; [discriminate|]. split; [exact Hb|split; [reflexivity|]]. intros ->. discriminate.
    + rewrite !responses_app. destruct Ic as [-> ->]. destruct sent; cbn; lia.
Qed.
Lemma inv_run ms s : run ms start = Some s -> inv ms s.
Proof.
  revert s. induction ms as [|m ms IH] using rev_ind; intros s E; [injection E as <-; apply inv_start|].
  rewrite run_snoc in E. destruct (run ms start) as [s0|] eqn:E0; [|discriminate]. eapply inv_step; [apply IH; reflexivity|exact E].
Qed.

(** ** no panic *)
Definition good_acc (a : acc) : Prop :=
  match a with
  | APerp p => t_kind p <> MSummarize
  | AWin c _ _ samples => (1 <= c)%N /\ StronglySorted earlier samples /\ (N.of_nat (List.length samples) <= c)%N /\ Forall (fun t => t_kind t = MSummarize /\ sampled t) samples
  end.
Definition good_agg (a : aggr) : Prop := (1 <= pa_cap a)%N /\ Forall (fun kv => good_acc (snd kv)) (pa_data a).

Lemma sampled_query t q : (forall c q, (0 < c_count c)%N -> c_query c q <> None) -> t_kind t = MSummarize -> sampled t -> exists v, t_query t q = Some v.
Proof.
  intros HL Hk Hs. unfold t_kind, sampled, t_query in *. destruct (t_value t) as [x|x|h|c x]; try discriminate. cbn. specialize (HL c q Hs).
  destruct (c_query c q) as [[n v]|]; [exists v; reflexivity|]. exfalso. apply HL. reflexivity.
Qed.
Lemma sampled_add a b : t_kind a = MSummarize -> t_kind b = MSummarize -> sampled a -> sampled b -> sampled (t_add a b).
Proof.
  unfold t_kind, sampled, t_add. cbn [t_value]. destruct (t_value a) as [x|x|h|c x]; try discriminate. destruct (t_value b) as [y|y|k|d y]; try discriminate. cbn. intros _ _ H1 H2. rewrite c_merge_count. lia.
Qed.
Lemma Forall_skipn {A} (P : A -> Prop) n : forall l, Forall P l -> Forall P (skipn n l).
Proof. induction n as [|n IH]; intros l H; [exact H|]. destruct H; [constructor|]. apply IH. assumption. Qed.
Lemma window_add_good c samples t : StronglySorted earlier samples -> t_kind t = MSummarize -> sampled t ->
  Forall (fun t => t_kind t = MSummarize /\ sampled t) samples -> Forall (fun t => t_kind t = MSummarize /\ sampled t) (window_add c samples t).
Proof.
  intros Hs Hk Ht H. destruct (window_add_shape c samples t Hs) as [(l1 & y & l3 & -> & _ & _ & _ & ->)|(l1 & l3 & -> & _ & _ & ->)].
  - apply Forall_app in H as [H1 H2]. inversion H2 as [|? ? [K1 K2] H3]; subst. apply Forall_app. split; [assumption|]. constructor; [|assumption].
    split; [rewrite kind_add; assumption|apply sampled_add; assumption].
  - apply Forall_skipn. apply Forall_app in H as [H1 H2]. apply Forall_app. split; [assumption|]. constructor; auto.
Qed.
Lemma ainsert_good k x data : good_acc x -> Forall (fun kv : string * acc => good_acc (snd kv)) data -> Forall (fun kv : string * acc => good_acc (snd kv)) (ainsert seqb k x data).
Proof.
  intros Hx H. induction H as [|[k' y] data Hy H IH]; cbn; [constructor; [exact Hx|constructor]|]. destruct (seqb k k'); constructor; auto.
Qed.
Lemma alookup_good k x data : Forall (fun kv : string * acc => good_acc (snd kv)) data -> alookup seqb k data = Some x -> good_acc x.
Proof.
  intros H E. induction H as [|[k' y] data Hy H IH]; cbn in E; [discriminate|]. destruct (seqb k k'); [injection E as <-; exact Hy|auto].
Qed.
Lemma insert_good a t : (forall c q, (0 < c_count c)%N -> c_query c q <> None) -> good_agg a -> sampled t -> exists a' b, pa_insert a t = Some (a', b) /\ good_agg a'.
Proof.
  intros HL [Hc Hd] Ht. unfold pa_insert. destruct (alookup seqb (t_name t) (pa_data a)) as [x|] eqn:El.
  - pose proof (alookup_good _ _ _ Hd El) as Hx. destruct (meth_eqb (a_kind x) (t_kind t)) eqn:Ek; [|exists a, false; split; [reflexivity|split; assumption]].
    apply meth_eqb_eq in Ek. destruct x as [p|c s k samples]; cbn [a_insert a_kind good_acc] in *.
    + eexists _, true. split; [reflexivity|]. split; [exact Hc|]. cbn [pa_data]. apply ainsert_good; [|assumption]. cbn. rewrite kind_add. congruence.
    + rewrite <- Ek. destruct (sampled_query t fone HL (eq_sym Ek) Ht) as [v ->]. destruct Hx as (X1 & X2 & X3 & X4).
      destruct (window_add_inv c samples t X2 X3) as [Y1 Y2]. destruct (N.leb_spec (N.of_nat (List.length (window_add c samples t))) c); [|lia].
      eexists _, true. split; [reflexivity|]. split; [exact Hc|]. cbn [pa_data]. apply ainsert_good; [|assumption]. cbn. repeat split; auto. apply window_add_good; auto.
  - destruct (t_kind t) eqn:Ek; try (eexists _, true; split; [reflexivity|]; split; [exact Hc|]; cbn [pa_data]; apply ainsert_good; [cbn; congruence|assumption]).
    destruct (sampled_query t fone HL Ek Ht) as [v ->]. eexists _, true. split; [reflexivity|]. split; [exact Hc|]. cbn [pa_data]. apply ainsert_good; [|assumption]. cbn.
    split; [exact Hc|]. split; [constructor; [constructor|constructor]|]. split; [lia|]. constructor; auto.
Qed.
Lemma purge_good now a : good_agg a -> good_agg (pa_purge now a).
Proof.
  intros [Hc Hd]. split; [exact Hc|]. cbn [pa_purge pa_data]. apply Forall_forall. intros kv Hin. apply in_map_iff in Hin as ([k x] & <- & Hin). rewrite Forall_forall in Hd. specialize (Hd _ Hin). cbn [snd fst] in *.
  destruct x as [p|c s n samples]; cbn in *; [exact Hd|]. destruct Hd as (X1 & X2 & X3 & X4). split; [exact X1|]. split; [apply sorted_filter; exact X2|].
  match goal with |- context [filter ?f samples] => pose proof (filter_le f samples) end. split; [lia|]. rewrite Forall_forall in *. intros t Hi. apply filter_In in Hi as [Hi _]. auto.
Qed.
Lemma apply_good o a : (forall c q, (0 < c_count c)%N -> c_query c q <> None) -> good_agg a -> (forall t, o = PInsert t -> sampled t) -> exists a', pop_apply o a = Some a' /\ good_agg a'.
Proof.
  intros HL Ha Ho. destruct o as [t|now]; cbn [pop_apply].
  - destruct (insert_good a t HL Ha (Ho t eq_refl)) as (a' & b & -> & H). cbn. eauto.
  - eauto using purge_good.
Qed.
Lemma report_good x : good_acc x -> exists o, a_report x = Some o /\ forall t, o = Some t -> (t_kind t = MSummarize -> sampled t).
Proof.
  destruct x as [p|c s k [|s0 r]]; cbn [good_acc]; intros H.
  - eexists. split; [reflexivity|]. intros t E. injection E as <-. congruence.
  - eexists. split; [reflexivity|]. intros t E. discriminate.
  - destruct H as (_ & _ & _ & H4).
    assert (K : t_kind (fold_left t_add r s0) = MSummarize /\ sampled (fold_left t_add r s0)).
    { inversion H4 as [|? ? [K1 K2] K3]; subst. clear H4. revert s0 K1 K2. induction K3 as [|x l [X1 X2] K3 IH]; intros s0 K1 K2; [auto|]. cbn. apply IH; [rewrite kind_add; assumption|apply sampled_add; assumption]. }
    destruct K as [K1 K2]. destruct (report_win c s k s0 r K1) as (t & Et & _ & _ & Ev & _). exists (Some t). split; [exact Et|]. intros t' E. injection E as <-. intros _. unfold sampled in *. rewrite Ev. exact K2.
Qed.
Lemma reported_good l : Forall good_acc l -> exists ts, reported l = Some ts /\ Forall (fun t => t_kind t = MSummarize -> sampled t) ts.
Proof.
  induction 1 as [|x l Hx H (ts & IH1 & IH2)]; [exists []; split; [reflexivity|constructor]|]. cbn. destruct (report_good x Hx) as (o & -> & Ho). rewrite IH1.
  destruct o as [t|]; [exists (t :: ts)|exists ts]; (split; [reflexivity|]); auto.
Qed.
Lemma write_good l : (forall c q, (0 < c_count c)%N -> c_query c q <> None) -> Forall (fun t => t_kind t = MSummarize -> sampled t) l -> forall seen, exists ls, write_lines show_f default seen l = Some ls.
Proof.
  intros HL. induction 1 as [|t l Ht H IH]; intros seen; [exists []; reflexivity|]. cbn.
  assert (W : exists seen' ls, write_one show_f default seen t = Some (seen', ls)).
  { unfold write_one. destruct (t_kind t) eqn:Ek.
    - destruct (t_sum t); eauto.
    - destruct (t_set t); eauto.
    - assert (X : forall qs name tags, exists ls, quantile_lines show_f name tags t qs = Some ls).
      { intros qs name tags. induction qs as [|q qs [ls Hq]]; [exists []; reflexivity|]. cbn. destruct (sampled_query t q HL Ek (Ht eq_refl)) as [v ->]. rewrite Hq. eauto. }
      destruct (X quantiles (sanitize (t_name t)) (tag_iter (t_tags t) default)) as [ls ->]. eauto.
    - destruct (t_bins t); eauto. }
  destruct W as (seen' & ls & ->). destruct (IH seen') as [ls' ->]. eauto.
Qed.
Lemma expose_good r a : (forall c q, (0 < c_count c)%N -> c_query c q <> None) -> (forall n l, Permutation l (shuffle n l)) -> good_agg a -> exists text, expose show_f show_n default shuffle r a = Some text.
Proof.
  intros HL HP [_ Hd]. unfold expose, pa_reportable. destruct (reported_good (map snd (pa_data a))) as (ts & -> & Ht).
  { apply Forall_forall. intros x Hx. apply in_map_iff in Hx as (kv & <- & Hx). rewrite Forall_forall in Hd. auto. }
  assert (Ht' : Forall (fun t => t_kind t = MSummarize -> sampled t) (shuffle r ts)) by (eapply Permutation_Forall; [apply HP|exact Ht]).
  unfold write_text. destruct (write_good _ HL Ht' []) as [ls ->]. cbn. eauto.
Qed.

Record calm (s : scrape) : Prop := mkCalm {
  c_agg : good_agg (sc_agg s);
  c_poison : sc_poisoned s = false;
  c_sink : sc_sink s <> SPanic;
  c_server : sc_server s <> VPanic;
  c_op : forall o, sc_sink s = SWants o \/ sc_sink s = SHolds o -> forall t, pop_of o = PInsert t -> sampled t;
}.
Lemma calm_step s m s' : (forall c q, (0 < c_count c)%N -> c_query c q <> None) -> (forall n l, Permutation l (shuffle n l)) ->
  calm s -> server_fails m = false -> (forall now t, m = MTold (SDeliver now t) -> sampled t) -> step s m = Some s' -> calm s'.
Proof.
  intros HL HP [Ca Cp Cs Cv Co] Hf Ho E. destruct m as [o| | | |r|fails|fails| | |sent]; cbn [sc_step] in E.
  - destruct (sc_sink s) eqn:Es; try discriminate. destruct (in_age age o); injection E as <-; constructor; proj; auto; try congruence.
    + intros o' [H|H]; [|discriminate]. injection H as <-. intros t Ht. destruct o as [now t'| |]; try discriminate. injection Ht as <-. eapply Ho. reflexivity.
    + intros o' [H|H]; congruence.
  - destruct (sc_sink s) as [|o|o| | |] eqn:Es; try discriminate. destruct (sc_lock s) eqn:El; try discriminate. rewrite Cp in E. injection E as <-. constructor; proj; auto; try discriminate.
    intros o' [H|H]; [discriminate|]. injection H as <-. apply Co. left; reflexivity.
  - destruct (sc_sink s) as [|o|o| | |] eqn:Es; try discriminate. destruct (apply_good (pop_of o) (sc_agg s) HL Ca) as (a' & Ea & Ha); [apply Co; right; reflexivity|]. rewrite Ea in E. injection E as <-.
    constructor; proj; auto; [destruct o; discriminate|]. intros o' [H|H]; destruct o; discriminate.
  - destruct (sc_sink s) eqn:Es; try discriminate. destruct (sc_server s) eqn:Ev; try discriminate; [|exfalso; apply Cv; reflexivity]. injection E as <-. constructor; proj; auto; try discriminate; try congruence. intros o [H|H]; discriminate.
  - injection E as <-. constructor; proj; auto.
  - destruct (sc_server s) eqn:Ev; try discriminate. injection E as <-. cbn in Hf. subst fails. constructor; proj; auto. destruct (sc_signal s); discriminate.
  - destruct (sc_server s) eqn:Ev; try discriminate. cbn in Hf. subst fails. destruct (sc_queue s); injection E as <-; constructor; proj; auto; discriminate.
  - destruct (sc_server s) eqn:Ev; try discriminate. injection E as <-. destruct (sc_lock s); [rewrite Cp| |]; constructor; proj; auto; try discriminate.
  - destruct (sc_server s) as [| | |r| | |] eqn:Ev; try discriminate. destruct (expose_good r (sc_agg s) HL HP Ca) as [text Et]. rewrite Et in E. injection E as <-. constructor; proj; auto; discriminate.
  - destruct (sc_server s) eqn:Ev; try discriminate. injection E as <-. destruct (seqb body ""); constructor; proj; auto; discriminate.
Qed.

(** ** an empty text is no points *)
Lemma append_nonempty a b : a <> "" -> (a ++ b)%string <> "". Proof. destruct a; [congruence|discriminate]. Qed.
Lemma render_nonempty l : render_line show_f show_n l <> "".
Proof.
  assert (X : forall a b, b <> "" -> (a ++ b)%string <> "") by (intros a b H; destruct a; [exact H|discriminate]).
  assert (Y : forall b, nl <> "" -> (b ++ nl)%string <> "") by auto.
  destruct l as [n t|n [[k x]|] tags v]; cbn [render_line]; [discriminate| |]; repeat (apply X); discriminate.
Qed.
Lemma write_one_nonempty seen t seen' ls : write_one show_f default seen t = Some (seen', ls) -> ls <> [].
Proof.
  unfold write_one, t_kind, t_sum, t_set, t_bins. destruct (t_value t) as [x|x|h|c x] eqn:Ev; cbn [value_kind value_sum value_set value_bins].
  - intros E. injection E as <- <-. destruct (existsb _ _); discriminate.
  - intros E. injection E as <- <-. destruct (existsb _ _); discriminate.
  - intros E. injection E as <- <-. unfold totals. destruct (existsb _ _); [|discriminate]. cbn [app]. intros H. apply app_eq_nil in H as [_ H]. discriminate.
  - destruct (quantile_lines _ _ _ _ _) as [qs|]; [|discriminate]. intros E. injection E as <- <-. destruct (existsb _ _); [|discriminate]. cbn [app]. intros H. apply app_eq_nil in H as [_ H]. discriminate.
Qed.
Lemma write_text_empty l : write_text show_f show_n default l = Some "" -> l = [].
Proof.
  destruct l as [|t l]; [reflexivity|]. unfold write_text. cbn [write_lines]. destruct (write_one show_f default [] t) as [[seen' ls]|] eqn:E1; [|discriminate].
  destruct (write_lines show_f default seen' l) as [ls'|]; [|discriminate]. cbn [option_map]. intros H. injection H as H. exfalso.
  apply write_one_nonempty in E1. destruct ls as [|x ls]; [congruence|]. cbn in H. revert H. apply append_nonempty. apply render_nonempty.
Qed.

(** ** after the signal *)
Definition rank (p : vphase) : nat :=
  match p with VRecv => 5 | VTaken _ => 4 | VWrites _ => 3 | VBuffer _ _ => 2 | VPoll => 1 | VEnd | VPanic => 0 end.
Definition in_recv (p : vphase) : nat := match p with VRecv => 1 | _ => 0 end.
Lemma signalled_step s m s' : sc_signal s = true -> step s m = Some s' ->
  sc_signal s' = true /\ rank (sc_server s') + (if of_server m then 1 else 0) <= rank (sc_server s) /\
  exists x, taken (sc_log s') = taken (sc_log s) ++ x /\ List.length x + in_recv (sc_server s') <= in_recv (sc_server s).
Proof.
  intros Hs E. assert (K : forall s' : scrape, sc_log s' = sc_log s -> in_recv (sc_server s') <= in_recv (sc_server s) -> exists x, taken (sc_log s') = taken (sc_log s) ++ x /\ List.length x + in_recv (sc_server s') <= in_recv (sc_server s)).
  { intros s0 -> H. exists []. rewrite app_nil_r. split; [reflexivity|exact H]. }
  destruct m as [o| | | |r|fails|fails| | |sent]; cbn [sc_step of_server] in *.
  - destruct (sc_sink s); try discriminate. destruct (in_age age o); injection E as <-; proj; (split; [assumption|split; [lia|apply K; proj; auto]]).
  - destruct (sc_sink s); try discriminate. destruct (sc_lock s); try discriminate. destruct (sc_poisoned s); injection E as <-; proj; (split; [assumption|split; [lia|apply (K (with_sink s SPanic)); proj; auto]]).
  - destruct (sc_sink s) as [|o|o| | |]; try discriminate. destruct (pop_apply _ _); injection E as <-; proj.
    + split; [destruct o; auto|]. split; [lia|]. exists []. rewrite taken_app. cbn. split; [reflexivity|lia].
    + split; [assumption|split; [lia|apply (K (with_sink s SPanic)); proj; auto]].
  - destruct (sc_sink s); try discriminate. destruct (sc_server s) eqn:Ev; try discriminate; injection E as <-; proj; rewrite Ev; (split; [assumption|split; [cbn; lia|exists []; rewrite app_nil_r; split; [reflexivity|cbn; lia]]]).
  - injection E as <-; proj. split; [assumption|split; [lia|apply (K s); auto]].
  - destruct (sc_server s) eqn:Ev; try discriminate. injection E as <-. proj. rewrite Hs. split; [reflexivity|]. split; [destruct fails; cbn; lia|]. exists []. rewrite app_nil_r. split; [reflexivity|]. destruct fails; cbn; lia.
  - destruct (sc_server s) eqn:Ev; try discriminate. destruct fails; [|destruct (sc_queue s)]; injection E as <-; proj; (split; [assumption|]); (split; [cbn; lia|]).
    + exists []. rewrite app_nil_r. split; [reflexivity|cbn; lia].
    + exists []. rewrite app_nil_r. split; [reflexivity|cbn; lia].
    + rewrite taken_app. eexists. split; [reflexivity|cbn; lia].
  - destruct (sc_server s) eqn:Ev; try discriminate. injection E as <-. destruct (sc_lock s); [destruct (sc_poisoned s)| |]; proj; (split; [assumption|]); (split; [cbn; lia|]); exists []; rewrite app_nil_r; (split; [reflexivity|cbn; lia]).
  - destruct (sc_server s) eqn:Ev; try discriminate. injection E as <-. destruct (expose _ _ _ _ _ _); proj; (split; [assumption|]); (split; [cbn; lia|]); exists []; rewrite ?taken_app, ?app_nil_r; (split; [reflexivity|cbn; lia]).
  - destruct (sc_server s) eqn:Ev; try discriminate. injection E as <-. destruct (seqb body ""); proj; (split; [assumption|]); (split; [cbn; lia|]); exists []; rewrite taken_app; (split; [reflexivity|cbn; lia]).
Qed.
Lemma signalled_run ms : forall s s', sc_signal s = true -> run ms s = Some s' ->
  sc_signal s' = true /\ rank (sc_server s') + List.length (filter of_server ms) <= rank (sc_server s) /\
  exists x, taken (sc_log s') = taken (sc_log s) ++ x /\ List.length x + in_recv (sc_server s') <= in_recv (sc_server s).
Proof.
  induction ms as [|m ms IH]; intros s s' Hs E.
  - injection E as <-. split; [assumption|]. split; [cbn; lia|]. exists []. rewrite app_nil_r. split; [reflexivity|cbn; lia].
  - cbn [sc_run] in E. destruct (step s m) as [s1|] eqn:E1; [|discriminate]. destruct (signalled_step _ _ _ Hs E1) as (A1 & A2 & x & A3 & A4).
    destruct (IH _ _ A1 E) as (B1 & B2 & y & B3 & B4). split; [assumption|]. split; [cbn [filter]; destruct (of_server m); cbn [List.length]; lia|].
    exists (x ++ y). rewrite B3, A3, app_assoc. split; [reflexivity|]. rewrite app_length. lia.
Qed.

(** ** after a panic with the lock held *)
Definition has_buffer (p : vphase) : nat := match p with VBuffer _ b => if seqb b "" then 0 else 1 | _ => 0 end.
Definition poisoned_ok (s : scrape) : Prop := sc_poisoned s = true -> (forall o, sc_sink s <> SHolds o) /\ (forall r, sc_server s <> VWrites r).
Lemma poisoned_free ms s : run ms start = Some s -> poisoned_ok s.
Proof.
  intros E. assert (H : sc_poisoned s = true -> sc_lock s = LFree).
  { revert s E. induction ms as [|m ms IH] using rev_ind; intros s E; [injection E as <-; discriminate|]. rewrite run_snoc in E. destruct (run ms start) as [s0|] eqn:E0; [|discriminate]. specialize (IH _ eq_refl).
    pose proof (i_lock _ _ (inv_run _ _ E0)) as HL.
    destruct m as [o| | | |r|fails|fails| | |sent]; cbn [sc_step] in E.
    - destruct (sc_sink s0); try discriminate. destruct (in_age age o); injection E as <-; exact IH.
    - destruct (sc_sink s0); try discriminate. destruct (sc_lock s0) eqn:El; try discriminate. destruct (sc_poisoned s0) eqn:Ep; injection E as <-; proj; [auto|]. congruence.
    - destruct (sc_sink s0); try discriminate. destruct (pop_apply _ _); injection E as <-; proj; reflexivity.
    - destruct (sc_sink s0); try discriminate. destruct (sc_server s0); try discriminate; injection E as <-; exact IH.
    - injection E as <-; exact IH.
    - destruct (sc_server s0); try discriminate. injection E as <-; exact IH.
    - destruct (sc_server s0); try discriminate. destruct fails; [|destruct (sc_queue s0)]; injection E as <-; exact IH.
    - destruct (sc_server s0); try discriminate. injection E as <-. destruct (sc_lock s0) eqn:El; [destruct (sc_poisoned s0) eqn:Ep| |]; proj; rewrite ?El, ?Ep; intros H; try specialize (IH H); congruence.
    - destruct (sc_server s0); try discriminate. injection E as <-. destruct (expose _ _ _ _ _ _); proj; reflexivity.
    - destruct (sc_server s0); try discriminate. injection E as <-. destruct (seqb body ""); exact IH. }
  intros Hp. pose proof (i_lock _ _ (inv_run _ _ E)) as HL. rewrite (H Hp) in HL. exact HL.
Qed.
Lemma poisoned_step s m s' : sc_poisoned s = true -> (forall o, sc_sink s <> SHolds o) -> (forall r, sc_server s <> VWrites r) -> step s m = Some s' ->
  sc_poisoned s' = true /\ (forall o, sc_sink s' <> SHolds o) /\ (forall r, sc_server s' <> VWrites r) /\
  ops_of (sc_log s') = ops_of (sc_log s) /\ full_answers (sc_log s') + has_buffer (sc_server s') <= full_answers (sc_log s) + has_buffer (sc_server s).
Proof.
  intros Hp Ho Hr E. destruct m as [o| | | |r|fails|fails| | |sent]; cbn [sc_step] in E.
  - destruct (sc_sink s) eqn:Es; try discriminate. destruct (in_age age o); injection E as <-; proj; repeat split; auto; try discriminate; try congruence.
  - destruct (sc_sink s) eqn:Es; try discriminate. destruct (sc_lock s); try discriminate. rewrite Hp in E. injection E as <-; proj; repeat split; auto; try discriminate; try congruence.
  - destruct (sc_sink s) as [|o|o| | |] eqn:Es; try discriminate. exfalso. apply (Ho o). reflexivity.
  - destruct (sc_sink s) eqn:Es; try discriminate. destruct (sc_server s) eqn:Ev; try discriminate; injection E as <-; proj; rewrite Ev; repeat split; auto; try discriminate; try congruence.
  - injection E as <-; proj; repeat split; auto.
  - destruct (sc_server s) eqn:Ev; try discriminate. injection E as <-; proj. repeat split; auto; destruct fails, (sc_signal s); try discriminate; cbn; lia.
  - destruct (sc_server s) eqn:Ev; try discriminate. destruct fails; [|destruct (sc_queue s)]; injection E as <-; proj; rewrite ?ops_app, ?full_app; cbn; rewrite ?app_nil_r; repeat split; auto; try discriminate; try congruence; lia.
  - destruct (sc_server s) eqn:Ev; try discriminate. injection E as <-. rewrite Hp. destruct (sc_lock s); proj; repeat split; auto; try discriminate.
  - destruct (sc_server s) as [| | |r| | |] eqn:Ev; try discriminate. exfalso. apply (Hr r). reflexivity.
  - destruct (sc_server s) as [| | | |r body| |] eqn:Ev; try discriminate. injection E as <-. cbn [has_buffer]. destruct (seqb body "") eqn:Eb; proj; rewrite ops_app, full_app; cbn; rewrite app_nil_r; repeat split; auto; try discriminate; try congruence; lia.
Qed.
Lemma poisoned_run ms : forall s s', sc_poisoned s = true -> (forall o, sc_sink s <> SHolds o) -> (forall r, sc_server s <> VWrites r) -> run ms s = Some s' ->
  sc_poisoned s' = true /\ ops_of (sc_log s') = ops_of (sc_log s) /\ full_answers (sc_log s') + has_buffer (sc_server s') <= full_answers (sc_log s) + has_buffer (sc_server s).
Proof.
  induction ms as [|m ms IH]; intros s s' Hp Ho Hr E; [injection E as <-; auto|]. cbn [sc_run] in E. destruct (step s m) as [s1|] eqn:E1; [|discriminate].
  destruct (poisoned_step _ _ _ Hp Ho Hr E1) as (A1 & A2 & A3 & A4 & A5). destruct (IH _ _ A1 A2 A3 E) as (B1 & B2 & B3). split; [assumption|]. split; [congruence|lia].
Qed.

(** ** why a buffer is what it is *)
Definition no_server (ms : list smove) : Prop := filter of_server ms = [].
Definition buffer_why (ms : list smove) (r : nat) (body : string) : Prop :=
  exists ms1 m1 ms2 s1, ms = ms1 ++ m1 :: ms2 /\ run ms1 start = Some s1 /\
    ((m1 = MTry /\ sc_server s1 = VTaken r /\ body = "" /\ ((exists o, sc_sink s1 = SHolds o) \/ sc_poisoned s1 = true)) \/
     (m1 = MWrite /\ sc_server s1 = VWrites r /\ exists text, expose show_f show_n default shuffle r (sc_agg s1) = Some text /\ body = body_of gzip text)).
Lemma why_snoc ms m r body : buffer_why ms r body -> buffer_why (ms ++ [m]) r body.
Proof. intros (ms1 & m1 & ms2 & s1 & -> & H). exists ms1, m1, (ms2 ++ [m]), s1. rewrite <- app_assoc. split; [reflexivity|exact H]. Qed.
Lemma buffer_has_why ms : forall s r body, run ms start = Some s -> sc_server s = VBuffer r body -> buffer_why ms r body.
Proof.
  induction ms as [|m ms IH] using rev_ind; intros s r body E Hb; [injection E as <-; discriminate|]. rewrite run_snoc in E. destruct (run ms start) as [s0|] eqn:E0; [|discriminate].
  assert (K : sc_server s0 = sc_server s -> buffer_why (ms ++ [m]) r body) by (intros K; apply why_snoc; eapply IH; [reflexivity|congruence]).
  pose proof (i_lock _ _ (inv_run _ _ E0)) as HL.
  destruct m as [o| | | |q|fails|fails| | |sent]; cbn [sc_step] in E.
  - destruct (sc_sink s0); try discriminate. destruct (in_age age o); injection E as <-; auto.
  - destruct (sc_sink s0); try discriminate. destruct (sc_lock s0) eqn:El; try discriminate. destruct (sc_poisoned s0) eqn:Ep; injection E as <-; auto.
  - destruct (sc_sink s0); try discriminate. destruct (pop_apply _ _); injection E as <-; auto.
  - destruct (sc_sink s0); try discriminate. destruct (sc_server s0) eqn:Ev; try discriminate; injection E as <-; proj_in Hb; congruence.
  - injection E as <-; auto.
  - destruct (sc_server s0); try discriminate. injection E as <-. proj_in Hb. destruct fails; [discriminate|destruct (sc_signal s0); discriminate].
  - destruct (sc_server s0); try discriminate. destruct fails; [|destruct (sc_queue s0)]; injection E as <-; proj_in Hb; discriminate.
  - destruct (sc_server s0) as [| |q| | | |] eqn:Ev; try discriminate. injection E as <-. exists ms, MTry, [], s0. split; [reflexivity|]. split; [exact E0|]. left.
    destruct (sc_lock s0) eqn:El; [destruct (sc_poisoned s0) eqn:Ep| |]; proj_in Hb; try discriminate; injection Hb as <- <-; repeat split; auto.
    + left. tauto.
    + exfalso. destruct HL as [_ [x H]]. congruence.
  - destruct (sc_server s0) as [| | |q| | |] eqn:Ev; try discriminate. injection E as <-. exists ms, MWrite, [], s0. split; [reflexivity|]. split; [exact E0|]. right.
    destruct (expose _ _ _ _ q _) as [text|] eqn:Ex; proj_in Hb; [|discriminate]. injection Hb as <- <-. eauto 10.
  - destruct (sc_server s0) as [| | | |q b| |] eqn:Ev; try discriminate. injection E as <-. destruct (seqb b ""); proj_in Hb; discriminate.
Qed.
Lemma why_mono ms ms' r body : buffer_why ms r body -> buffer_why (ms ++ ms') r body.
Proof. intros (ms1 & m1 & ms2 & s1 & -> & H). exists ms1, m1, (ms2 ++ ms'), s1. rewrite <- app_assoc. split; [reflexivity|exact H]. Qed.
Lemma answer_has_why ms : forall s r a, run ms start = Some s -> In (EvAnswer r a) (sc_log s) ->
  (exists h b sent, a = A200 h b sent) \/ a = APanic \/ (a = ADropped /\ buffer_why ms r "").
Proof.
  induction ms as [|m ms IH] using rev_ind; intros s r a E Hin; [injection E as <-; destruct Hin|]. rewrite run_snoc in E. destruct (run ms start) as [s0|] eqn:E0; [|discriminate].
  assert (K : In (EvAnswer r a) (sc_log s0) -> (exists h b sent, a = A200 h b sent) \/ a = APanic \/ (a = ADropped /\ buffer_why (ms ++ [m]) r "")).
  { intros K. destruct (IH _ r a eq_refl K) as [H|[H|[H1 H2]]]; auto. right; right. split; [assumption|apply why_snoc; assumption]. }
  destruct m as [o| | | |q|fails|fails| | |sent]; cbn [sc_step] in E.
  - destruct (sc_sink s0); try discriminate. destruct (in_age age o); injection E as <-; auto.
  - destruct (sc_sink s0); try discriminate. destruct (sc_lock s0) eqn:El; try discriminate. destruct (sc_poisoned s0) eqn:Ep; injection E as <-; auto.
  - destruct (sc_sink s0); try discriminate. destruct (pop_apply _ _); injection E as <-; auto. proj_in Hin. apply in_app_or in Hin as [Hin|[Hin|[]]]; [auto|discriminate].
  - destruct (sc_sink s0); try discriminate. destruct (sc_server s0) eqn:Ev; try discriminate; injection E as <-; auto.
  - injection E as <-; auto.
  - destruct (sc_server s0); try discriminate. injection E as <-. auto.
  - destruct (sc_server s0); try discriminate. destruct fails; [|destruct (sc_queue s0)]; injection E as <-; auto. proj_in Hin. apply in_app_or in Hin as [Hin|[Hin|[]]]; [auto|discriminate].
  - destruct (sc_server s0) as [| |q| | | |] eqn:Ev; try discriminate. injection E as <-. destruct (sc_lock s0); [destruct (sc_poisoned s0)| |]; auto.
  - destruct (sc_server s0) as [| | |q| | |] eqn:Ev; try discriminate. injection E as <-. destruct (expose _ _ _ _ q _) as [text|] eqn:Ex; auto. proj_in Hin. apply in_app_or in Hin as [Hin|[Hin|[]]]; [auto|]. injection Hin as <- <-. auto.
  - destruct (sc_server s0) as [| | | |q b| |] eqn:Ev; try discriminate. injection E as <-. destruct (seqb b "") eqn:Eb; proj_in Hin; (apply in_app_or in Hin as [Hin|[Hin|[]]]; [auto|]); injection Hin as <- <-.
    + right; right. split; [reflexivity|]. apply why_snoc. apply seqb_eq in Eb. subst b. eapply buffer_has_why; eassumption.
    + left. eauto.
Qed.
Lemma calm_run ms : (forall c q, (0 < c_count c)%N -> c_query c q <> None) -> (forall n l, Permutation l (shuffle n l)) -> (1 <= cap)%N ->
  (forall m, In m ms -> server_fails m = false) -> (forall now t, In (SDeliver now t) (told ms) -> sampled t) -> forall s, run ms start = Some s -> calm s.
Proof.
  intros HL HP Hc. induction ms as [|m ms IH] using rev_ind; intros Hf Ho s E.
  - injection E as <-. constructor; cbn; try discriminate; auto; [split; [exact Hc|constructor]|]. intros o [H|H]; discriminate.
  - rewrite run_snoc in E. destruct (run ms start) as [s0|] eqn:E0; [|discriminate]. eapply calm_step; [exact HL|exact HP| | | |exact E].
    + apply IH; [intros m' H; apply Hf; apply in_or_app; auto| |reflexivity]. intros now t H. eapply Ho. rewrite told_app. apply in_or_app. left. exact H.
    + apply Hf. apply in_or_app. right. left. reflexivity.
    + intros now t ->. eapply Ho. rewrite told_app. apply in_or_app. right. left. reflexivity.
Qed.
Lemma calm_no_panic ms : (forall c q, (0 < c_count c)%N -> c_query c q <> None) -> (forall n l, Permutation l (shuffle n l)) -> (1 <= cap)%N ->
  (forall m, In m ms -> server_fails m = false) -> (forall now t, In (SDeliver now t) (told ms) -> sampled t) -> forall s r, run ms start = Some s -> ~ In (EvAnswer r APanic) (sc_log s).
Proof.
  intros HL HP Hc. induction ms as [|m ms IH] using rev_ind; intros Hf Ho s r E; [injection E as <-; intros []|].
  assert (Hf0 : forall m, In m ms -> server_fails m = false) by (intros m' H; apply Hf; apply in_or_app; auto).
  assert (Ho0 : forall now t, In (SDeliver now t) (told ms) -> sampled t) by (intros now t H; eapply Ho; rewrite told_app; apply in_or_app; left; exact H).
  rewrite run_snoc in E. destruct (run ms start) as [s0|] eqn:E0; [|discriminate]. specialize (IH Hf0 Ho0 s0 r eq_refl). pose proof (calm_run ms HL HP Hc Hf0 Ho0 s0 E0) as [Ca _ _ _ _].
  destruct m as [o| | | |q|fails|fails| | |sent]; cbn [sc_step] in E.
  - destruct (sc_sink s0); try discriminate. destruct (in_age age o); injection E as <-; auto.
  - destruct (sc_sink s0); try discriminate. destruct (sc_lock s0) eqn:El; try discriminate. destruct (sc_poisoned s0) eqn:Ep; injection E as <-; auto.
  - destruct (sc_sink s0); try discriminate. destruct (pop_apply _ _); injection E as <-; auto. proj. intros H. apply in_app_or in H as [H|[H|[]]]; [auto|discriminate].
  - destruct (sc_sink s0); try discriminate. destruct (sc_server s0) eqn:Ev; try discriminate; injection E as <-; auto.
  - injection E as <-; auto.
  - destruct (sc_server s0); try discriminate. injection E as <-. auto.
  - destruct (sc_server s0); try discriminate. destruct fails; [|destruct (sc_queue s0)]; injection E as <-; auto. proj. intros H. apply in_app_or in H as [H|[H|[]]]; [auto|discriminate].
  - destruct (sc_server s0) as [| |q| | | |] eqn:Ev; try discriminate. injection E as <-. destruct (sc_lock s0); [destruct (sc_poisoned s0)| |]; auto.
  - destruct (sc_server s0) as [| | |q| | |] eqn:Ev; try discriminate. injection E as <-. destruct (expose_good q (sc_agg s0) HL HP Ca) as [text ->]. exact IH.
  - destruct (sc_server s0) as [| | | |q b| |] eqn:Ev; try discriminate. injection E as <-. destruct (seqb b "") eqn:Eb; proj; intros H; (apply in_app_or in H as [H|[H|[]]]; [auto|discriminate]).
Qed.
End Proofs.
