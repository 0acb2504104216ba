(** * Proofs about the running process. *)
From Verif Require Import Base BaseFacts TelemetryModel FlowModel FlowSpec FlowProofs FlowProps TopologyModel TopologySpec TopologyProofs TopologyProps NetworkModel NetworkSpec.
Open Scope string_scope. Open Scope list_scope. Open Scope nat_scope.

Lemma weqb_eq a b : weqb a b = true <-> a = b.
Proof.
  destruct a, b; cbn; try (split; [discriminate|congruence]); [| |tauto].
  - rewrite andb_true_iff, seqb_eq, Nat.eqb_eq. split; [intros [-> ->]; reflexivity|intros [= -> ->]; auto].
  - rewrite seqb_eq. split; congruence.
Qed.
Lemma weqb_refl a : weqb a a = true.
Proof. apply weqb_eq; reflexivity. Qed.
Lemma seqb_refl' a : seqb a a = true.
Proof. apply seqb_eq; reflexivity. Qed.
Lemma seqb_ne a b : a <> b -> seqb a b = false.
Proof. intros H. destruct (seqb a b) eqn:E; [apply seqb_eq in E; contradiction|reflexivity]. Qed.
Lemma weqb_ne a b : a <> b -> weqb a b = false.
Proof. intros H. destruct (weqb a b) eqn:E; [apply weqb_eq in E; contradiction|reflexivity]. Qed.
Lemma seqb_sym a b : seqb a b = seqb b a.
Proof. destruct (seqb a b) eqn:E; symmetry; [apply seqb_eq in E; subst; apply seqb_refl'|]. destruct (seqb b a) eqn:E'; [apply seqb_eq in E'; subst; rewrite seqb_refl' in E; discriminate|reflexivity]. Qed.
Lemma weqb_sym a b : weqb a b = weqb b a.
Proof. destruct (weqb a b) eqn:E; symmetry; [apply weqb_eq in E; subst; apply weqb_refl|]. destruct (weqb b a) eqn:E'; [apply weqb_eq in E'; subst; rewrite weqb_refl in E; discriminate|reflexivity]. Qed.
Lemma flat_map_snoc {A B} (f : A -> list B) l x : flat_map f (l ++ [x]) = flat_map f l ++ f x.
Proof. rewrite flat_map_app. cbn. rewrite app_nil_r. reflexivity. Qed.

Section Network.
Context `{Q : QLib} {S : Type}.
Variable proc : string -> S -> event -> S * list event * option event.
Variable st0 : string -> S.
Variable fint : string -> option N.
Notation nrun := (nrun proc st0 fint). Notation nstep := (nstep proc fint).
Notation filter_of := (filter_of proc).

(** ** Running a filter event by event *)
Lemma f_run_snoc F n e p : forall st buf shut,
  let r := f_run F n p st buf shut in
  fr_stopped r = false ->
  let r' := f_run F n [Some e] (fr_state r) (fr_buffer r) (shut + shutdowns (received p)) in
  f_run F n (p ++ [Some e]) st buf shut =
  mkFres (fr_sent r ++ fr_sent r') (fr_stopped r') (fr_rest r') (fr_state r') (fr_buffer r').
Proof.
  induction p as [|[x|] p IH]; intros st buf shut; cbv zeta.
  - intros _. change (fr_state (f_run F n [] st buf shut)) with st. change (fr_buffer (f_run F n [] st buf shut)) with buf.
    change (fr_sent (f_run F n [] st buf shut)) with (@nil event). change (shutdowns (received [])) with 0. rewrite Nat.add_0_r. cbn [app].
    generalize (f_run F n [Some e] st buf shut). intros []; reflexivity.
  - rewrite received_cons, shutdowns_app. cbn [app].
    destruct (is_shutdown x) eqn:E.
    + destruct x; try discriminate E. cbn [f_run]. change (shutdowns [EShutdown]) with 1.
      destruct (n <=? shut + 1); [discriminate|]. cbn [fr_stopped fr_sent fr_rest fr_state fr_buffer]. intros H.
      rewrite (IH st buf (shut + 1) H). cbn [fr_stopped fr_sent fr_rest fr_state fr_buffer]. rewrite Nat.add_assoc. reflexivity.
    + assert (E0 : shutdowns [x] = 0) by (unfold shutdowns; cbn; rewrite E; reflexivity). rewrite E0. cbn [Nat.add].
      assert (Eq : forall p, f_run F n (Some x :: p) st buf shut =
        let '(st', pushed, err) := f_process F st x in
        match err with
        | None => let res := f_run F n p st' [] shut in mkFres ((buf ++ pushed) ++ fr_sent res) (fr_stopped res) (fr_rest res) (fr_state res) (fr_buffer res)
        | Some fe => let res := f_run F n p st' (buf ++ pushed) shut in mkFres (fe :: fr_sent res) (fr_stopped res) (fr_rest res) (fr_state res) (fr_buffer res)
        end) by (intros p'; destruct x; try discriminate E; reflexivity).
      rewrite !Eq. clear Eq. destruct (f_process F st x) as [[st' pushed] [fe|]]; cbv zeta; cbn [fr_stopped fr_sent fr_rest fr_state fr_buffer]; intros H;
        rewrite (IH _ _ _ H); cbn [fr_stopped fr_sent fr_rest fr_state fr_buffer app]; rewrite <- ?app_assoc; reflexivity.
  - rewrite received_cons. cbn [app f_run]. apply IH.
Qed.
Lemma received_some l : received (map Some l) = l.
Proof. induction l as [|a l IH]; [reflexivity|]. cbn [map]. rewrite received_cons, IH. reflexivity. Qed.
Lemma f_run_one_rest F n e st buf shut : fr_rest (f_run F n [Some e] st buf shut) = [].
Proof. destruct e; cbn; try (destruct (f_process F st _) as [[? ?] [?|]]; reflexivity). destruct (n <=? shut + 1); reflexivity. Qed.

(** ** The wiring *)
Definition sends_of (t : started) (u : who) : list string :=
  match u with
  | Src id _ => match alookup seqb id (t_sources t) with Some l => l | None => [] end
  | Fil id => match alookup seqb id (t_filters t) with Some p => snd p | None => [] end
  | Tim => t_timer t
  end.
Record wf (t : started) : Prop := {
  wf_nodup : forall u, NoDup (sends_of t u);
  wf_apart : forall d, alookup seqb d (t_filters t) <> None -> alookup seqb d (t_sinks t) = None;
}.

Lemma Forall2_alookup {A V} (R : A -> string * V -> Prop) (f : A -> string) l m :
  Forall2 (fun a r => fst r = f a /\ R a r) l m -> NoDup (map f l) ->
  forall id v, alookup seqb id m = Some v -> exists a, In a l /\ f a = id /\ R a (id, v).
Proof.
  induction 1 as [|a [k v'] l m [E H] _ IH]; intros Hn id v Hl; [discriminate|]. cbn in *. inversion Hn as [|? ? Hni Hn']; subst k.
  destruct (seqb id (f a)) eqn:Es.
  - injection Hl as <-. apply seqb_eq in Es. subst id. exists a. auto.
  - destruct (IH Hn' id v Hl) as (b & Hb & E2 & Hr). exists b. auto.
Qed.
Lemma Forall2_alookup_some {A V} (R : A -> string * V -> Prop) (f : A -> string) l m :
  Forall2 (fun a r => fst r = f a /\ R a r) l m -> NoDup (map f l) ->
  forall a, In a l -> exists v, alookup seqb (f a) m = Some v /\ R a (f a, v).
Proof.
  induction 1 as [|a [k v'] l m [E H] _ IH]; intros Hn b Hb; [contradiction|]. cbn in *. inversion Hn as [|? ? Hni Hn']; subst k.
  destruct Hb as [->|Hb].
  - rewrite seqb_refl'. eauto.
  - destruct (IH Hn' b Hb) as (v & Hv & Hr). rewrite seqb_ne; [eauto|]. intros E. apply Hni. rewrite <- E. apply in_map. exact Hb.
Qed.

Section Wired.
Variable g : config.
Variable t : started.
Hypothesis Hd : distinct_ids g.
Hypothesis Hw : wire g = Going t.
Lemma nd_sources : NoDup (map fst (g_natives g ++ g_sources g)).
Proof. unfold distinct_ids, senders_of in Hd. rewrite map_app in Hd. apply NoDup_app_r, NoDup_app_r in Hd. exact Hd. Qed.
Lemma nd_filters : NoDup (map fst (g_filters g)).
Proof. apply filters_nd. exact Hd. Qed.
Lemma nd_sinks : NoDup (g_sinks g).
Proof. unfold distinct_ids in Hd. clear -Hd. induction (g_sinks g); [constructor|]. cbn in Hd. inversion Hd; subst. constructor; auto. intros H. apply H1, in_or_app; auto. Qed.
Lemma source_lookup id sends : alookup seqb id (t_sources t) = Some sends -> exists fw, In (id, fw) (g_natives g ++ g_sources g) /\ lists sends (fun v => In v fw).
Proof.
  intros H. destruct (C51_one_sender_per_forward g t Hd Hw) as [F _].
  destruct (Forall2_alookup _ fst _ _ F nd_sources id sends H) as ([i fw] & Hin & E & Hl). cbn in *. subst. eauto.
Qed.
Lemma source_found id : In id (map fst (g_natives g ++ g_sources g)) -> exists sends fw, alookup seqb id (t_sources t) = Some sends /\ In (id, fw) (g_natives g ++ g_sources g) /\ lists sends (fun v => In v fw).
Proof.
  intros H. apply in_map_iff in H as ([i fw] & <- & Hin). destruct (C51_one_sender_per_forward g t Hd Hw) as [F _].
  destruct (Forall2_alookup_some _ fst _ _ F nd_sources _ Hin) as (v & E & Hl). eauto.
Qed.
Lemma filter_lookup id sources sends : alookup seqb id (t_filters t) = Some (sources, sends) ->
  exists fw, In (id, fw) (g_filters g) /\ lists sends (fun v => In v fw) /\ lists sources (fun u => upstream g u id /\ ~ In u fw).
Proof.
  intros H. destruct (C51_one_sender_per_forward g t Hd Hw) as [_ F].
  destruct (Forall2_alookup _ fst _ _ F nd_filters id _ H) as ([i fw] & Hin & E & Hl). cbn in *. subst.
  assert (F' := C51_filters_expect_upstreams_partial g t Hd Hw).
  destruct (Forall2_alookup_some _ fst _ _ F' nd_filters _ Hin) as (v & E & Hl'). cbn in *. rewrite H in E. injection E as <-. eauto.
Qed.
Lemma filter_found id : In id (map fst (g_filters g)) -> exists sources sends, alookup seqb id (t_filters t) = Some (sources, sends).
Proof.
  intros H. apply in_map_iff in H as ([i fw] & <- & Hin). destruct (C51_one_sender_per_forward g t Hd Hw) as [_ F].
  destruct (Forall2_alookup_some _ fst _ _ F nd_filters _ Hin) as ([a b] & E & Hl). eauto.
Qed.
Lemma sink_lookup id sources : alookup seqb id (t_sinks t) = Some sources -> In id (g_sinks g) /\ lists sources (fun u => upstream g u id).
Proof.
  intros H. assert (F := C51_sinks_expect_upstreams g t Hd Hw).
  destruct (Forall2_alookup _ (fun x => x) _ _ F ltac:(rewrite map_id; apply nd_sinks) id sources H) as (i & Hin & E & Hl). cbn in *. subst. auto.
Qed.
Lemma sink_found id : In id (g_sinks g) -> exists sources, alookup seqb id (t_sinks t) = Some sources.
Proof.
  intros H. assert (F := C51_sinks_expect_upstreams g t Hd Hw).
  destruct (Forall2_alookup_some _ (fun x => x) _ _ F ltac:(rewrite map_id; apply nd_sinks) id H) as (v & E & _). eauto.
Qed.
Lemma wired_wf : wf t.
Proof.
  split.
  - intros [id k|id|]; cbn.
    + destruct (alookup seqb id (t_sources t)) as [l|] eqn:E; [|constructor]. destruct (source_lookup _ _ E) as (fw & _ & [H _]). exact H.
    + destruct (alookup seqb id (t_filters t)) as [[a b]|] eqn:E; [|constructor]. destruct (filter_lookup _ _ _ E) as (fw & _ & [H _] & _). exact H.
    + exact (proj1 (C51_timer g t Hd Hw)).
  - intros d H. destruct (alookup seqb d (t_filters t)) as [[a b]|] eqn:E; [|congruence].
    destruct (alookup seqb d (t_sinks t)) as [l|] eqn:E'; [|reflexivity].
    destruct (filter_lookup _ _ _ E) as (fw & H1 & _). destruct (sink_lookup _ _ E') as [H2 _].
    destruct (sink_not_sender g Hd _ fw H2). unfold senders_of. apply in_or_app. auto.
Qed.
End Wired.

(** ** The invariant *)
Definition pulse_event (i : nat) : event := ETimerFlush (N.of_nat i mod 2 ^ 64)%N.
Definition said (t : started) (tr : list label) (u : who) : list event :=
  match u with
  | Src id k => emitted id k tr
  | Fil id => match alookup seqb id (t_filters t) with
              | Some (sources, _) => fr_sent (f_run (filter_of id) (List.length sources) (map Some (polled id tr)) (st0 id) [] 0)
              | None => []
              end
  | Tim => map pulse_event (seq 1 (pulses tr))
  end.
Definition mem (d : string) (l : list string) : bool := existsb (seqb d) l.
Lemma mem_In d l : mem d l = true <-> In d l.
Proof. unfold mem. rewrite existsb_exists. split; [intros (x & H & E); apply seqb_eq in E; subst; exact H|intros H; exists d; rewrite seqb_refl'; auto]. Qed.

Definition pend (l : list (string * event)) (d : string) : list event :=
  flat_map (fun c => if seqb d (fst c) then [snd c] else []) l.
Lemma pend_map d e l : NoDup l -> pend (map (fun x => (x, e)) l) d = if mem d l then [e] else [].
Proof.
  induction 1 as [|x l Hn _ IH]; [reflexivity|]. cbn. fold (pend (map (fun x => (x, e)) l) d). fold (mem d l). rewrite IH.
  destruct (seqb d x) eqn:E; [|reflexivity]. apply seqb_eq in E. subst x.
  destruct (mem d l) eqn:E2; [apply mem_In in E2; contradiction|reflexivity].
Qed.
Lemma pend_app a b d : pend (a ++ b) d = pend a d ++ pend b d.
Proof. apply flat_map_app. Qed.
Lemma pend_copies d e l : NoDup l -> pend (copies l e) d = if mem d l then [e] else [].
Proof.
  intros H. destruct l as [|x r]; [reflexivity|]. cbn [copies]. inversion H; subst.
  rewrite pend_map by (apply NoDup_app_one; assumption).
  unfold mem. rewrite existsb_app. cbn. rewrite orb_false_r, orb_comm. reflexivity.
Qed.
Lemma pend_many d l : NoDup l -> forall es, pend (flat_map (copies l) es) d = if mem d l then es else [].
Proof.
  intros H. induction es as [|e es IH]; cbn [flat_map]; [destruct (mem d l); reflexivity|].
  rewrite pend_app, IH, pend_copies by assumption. destruct (mem d l); reflexivity.
Qed.

Record inv (t : started) (tr : list label) (s : net) : Prop := {
  i_queue : forall d, arrived d tr = polled d tr ++ n_queue s d;
  i_link : forall u d, attempts u d tr ++ pend (n_out s u) d = if mem d (sends_of t u) then said t tr u else [];
  i_filter : forall d sources sends, alookup seqb d (t_filters t) = Some (sources, sends) ->
    let r := f_run (filter_of d) (List.length sources) (map Some (polled d tr)) (st0 d) [] 0 in
    n_filter s d = mkFnode (fr_state r) (fr_buffer r) (shutdowns (polled d tr)) (fr_stopped r) /\ fr_rest r = [];
  i_sink : forall d sources, alookup seqb d (t_sinks t) = Some sources ->
    sr_queue (n_sink s d) = [] /\
    exists ms, n_sink s d = sink_exec (List.length sources) (fint d) ms sink_start /\ arrivals ms = polled d tr;
  i_idx : n_idx s = (N.of_nat (pulses tr) mod 2 ^ 64)%N;
}.

Lemma arrived_snoc d tr l : arrived d (tr ++ [l]) = arrived d tr ++ arrived d [l].
Proof. apply flat_map_app. Qed.
Lemma polled_snoc d tr l : polled d (tr ++ [l]) = polled d tr ++ polled d [l].
Proof. apply flat_map_app. Qed.
Lemma attempts_snoc u d tr l : attempts u d (tr ++ [l]) = attempts u d tr ++ attempts u d [l].
Proof. apply flat_map_app. Qed.
Lemma emitted_snoc u d tr l : emitted u d (tr ++ [l]) = emitted u d tr ++ emitted u d [l].
Proof. apply flat_map_app. Qed.
Lemma pulses_snoc tr l : pulses (tr ++ [l]) = pulses tr + pulses [l].
Proof. unfold pulses. rewrite filter_app, app_length. reflexivity. Qed.

Lemma shutdowns_one (e : event) n : (match e with EShutdown => n + 1 | _ => n end) = n + shutdowns [e].
Proof. destruct e; unfold shutdowns; cbn; lia. Qed.

Lemma inv_step t tr s l s' : wf t -> inv t tr s -> nstep t s l s' -> inv t (tr ++ [l]) s'.
Proof.
  intros W [Iq Il If Ik Ii] St. destruct St as [id sends k e H1 H2 H3 H4|id sends H1 H2 H3|H1|u d e r ok H1|d sources sends e q H1 H2 H3 H4|d sources e q H1 H2 H3 H4|d sources o e H1 H2 H3].
  - (* emit *) split.
    + intros d. rewrite arrived_snoc, polled_snoc. cbn. rewrite !app_nil_r. apply Iq.
    + intros u d. rewrite attempts_snoc. cbn [attempts flat_map n_out set_out]. rewrite !app_nil_r. unfold upd.
      assert (Hn := wf_nodup t W (Src id k)). cbn [sends_of] in Hn. rewrite H1 in Hn.
      destruct (weqb (Src id k) u) eqn:E.
      * apply weqb_eq in E. subst u. specialize (Il (Src id k) d). rewrite H3 in Il. cbn [sends_of said pend flat_map] in *. rewrite H1 in *. rewrite app_nil_r in Il. rewrite Il, pend_copies by assumption.
        rewrite emitted_snoc. cbn [emitted flat_map]. rewrite seqb_refl', Nat.eqb_refl. cbn. destruct (mem d sends); reflexivity.
      * rewrite Il. destruct (mem d (sends_of t u)); [|reflexivity]. destruct u as [i j|i|]; cbn [said].
        -- rewrite emitted_snoc. cbn [emitted flat_map]. cbn [weqb] in E. rewrite seqb_sym, Nat.eqb_sym, E. rewrite !app_nil_r. reflexivity.
        -- rewrite polled_snoc. cbn [polled flat_map]. rewrite app_nil_r. reflexivity.
        -- rewrite pulses_snoc. cbn. rewrite Nat.add_0_r. reflexivity.
    + intros d a b H. rewrite polled_snoc. cbn [polled flat_map]. rewrite app_nil_r. exact (If d a b H).
    + intros d a H. rewrite polled_snoc. cbn [polled flat_map]. rewrite app_nil_r. exact (Ik d a H).
    + rewrite pulses_snoc. cbn. rewrite Nat.add_0_r. exact Ii.
  - (* stop *) split.
    + intros d. rewrite arrived_snoc, polled_snoc. cbn. rewrite !app_nil_r. apply Iq.
    + intros u d. rewrite attempts_snoc. cbn [attempts flat_map n_out set_out set_done]. rewrite !app_nil_r. unfold upd.
      assert (Hn := wf_nodup t W (Src id 0)). cbn [sends_of] in Hn. rewrite H1 in Hn.
      destruct (weqb (Src id 0) u) eqn:E.
      * apply weqb_eq in E. subst u. specialize (Il (Src id 0) d). rewrite H3 in Il. cbn [sends_of said pend flat_map] in *. rewrite H1 in *. rewrite app_nil_r in Il. rewrite Il, pend_copies by assumption.
        rewrite emitted_snoc. cbn [emitted flat_map]. rewrite seqb_refl'. cbn. destruct (mem d sends); reflexivity.
      * rewrite Il. destruct (mem d (sends_of t u)); [|reflexivity]. destruct u as [i j|i|]; cbn [said].
        -- rewrite emitted_snoc. cbn [emitted flat_map]. cbn [weqb] in E. rewrite seqb_sym, Nat.eqb_sym, E. rewrite !app_nil_r. reflexivity.
        -- rewrite polled_snoc. cbn [polled flat_map]. rewrite app_nil_r. reflexivity.
        -- rewrite pulses_snoc. cbn. rewrite Nat.add_0_r. reflexivity.
    + intros d a b H. rewrite polled_snoc. cbn [polled flat_map]. rewrite app_nil_r. exact (If d a b H).
    + intros d a H. rewrite polled_snoc. cbn [polled flat_map]. rewrite app_nil_r. exact (Ik d a H).
    + rewrite pulses_snoc. cbn. rewrite Nat.add_0_r. exact Ii.
  - (* pulse *)
    assert (Ei : ((n_idx s + 1) mod 2 ^ 64 = N.of_nat (Datatypes.S (pulses tr)) mod 2 ^ 64)%N).
    { rewrite Ii, N.add_mod_idemp_l by lia. f_equal. lia. }
    split.
    + intros d. rewrite arrived_snoc, polled_snoc. cbn. rewrite !app_nil_r. apply Iq.
    + intros u d. rewrite attempts_snoc. cbn [attempts flat_map n_out set_out set_idx]. rewrite !app_nil_r. unfold upd.
      assert (Hn := wf_nodup t W Tim). cbn [sends_of] in Hn.
      destruct (weqb Tim u) eqn:E.
      * apply weqb_eq in E. subst u. specialize (Il Tim d). rewrite H1 in Il. cbn [sends_of said pend flat_map] in *. rewrite app_nil_r in Il. rewrite Il, pend_copies by assumption.
        rewrite pulses_snoc. cbn [pulses filter List.length]. rewrite seq_app, map_app. cbn [seq map plus]. unfold pulse_event at 3. rewrite Ei. destruct (mem d (t_timer t)); reflexivity.
      * rewrite Il. destruct (mem d (sends_of t u)); [|reflexivity]. destruct u as [i j|i|]; cbn [said].
        -- rewrite emitted_snoc. cbn [emitted flat_map]. rewrite !app_nil_r. reflexivity.
        -- rewrite polled_snoc. cbn [polled flat_map]. rewrite app_nil_r. reflexivity.
        -- discriminate E.
    + intros d a b H. rewrite polled_snoc. cbn [polled flat_map]. rewrite app_nil_r. exact (If d a b H).
    + intros d a H. rewrite polled_snoc. cbn [polled flat_map]. rewrite app_nil_r. exact (Ik d a H).
    + rewrite pulses_snoc. cbn [pulses filter List.length]. cbn [n_idx set_idx set_out]. rewrite Ei. f_equal. f_equal. lia.
  - (* copy *) split.
    + intros x. rewrite arrived_snoc, polled_snoc. cbn [arrived polled flat_map]. rewrite !app_nil_r, Iq. destruct ok; cbn [n_queue set_out set_queue].
      * unfold upd. rewrite (seqb_sym x d). destruct (seqb d x) eqn:E; [apply seqb_eq in E; subst; rewrite app_assoc; reflexivity|apply app_nil_r].
      * apply app_nil_r.
    + intros v x. rewrite attempts_snoc. cbn [attempts flat_map]. replace (n_out (set_out u r (if ok then set_queue d (n_queue s d ++ [e]) s else s))) with (upd weqb u r (n_out s)) by (destruct ok; reflexivity).
      unfold upd. rewrite app_nil_r, (weqb_sym v u).
      assert (Es : said t (tr ++ [LCopy u d e ok]) v = said t tr v).
      { destruct v as [i j|i|]; cbn [said]; [rewrite emitted_snoc; cbn [emitted flat_map]; rewrite app_nil_r|rewrite polled_snoc; cbn [polled flat_map]; rewrite app_nil_r|rewrite pulses_snoc; cbn; rewrite Nat.add_0_r]; reflexivity. }
      rewrite Es, <- Il. destruct (weqb u v) eqn:E; cbn [andb].
      * apply weqb_eq in E. subst v. rewrite H1. cbn [pend flat_map fst snd]. rewrite <- app_assoc. reflexivity.
      * rewrite app_nil_r. reflexivity.
    + intros x a b H. rewrite polled_snoc. cbn [polled flat_map]. rewrite app_nil_r. destruct ok; exact (If x a b H).
    + intros x a H. rewrite polled_snoc. cbn [polled flat_map]. rewrite app_nil_r. destruct ok; exact (Ik x a H).
    + rewrite pulses_snoc. cbn [pulses filter List.length]. rewrite Nat.add_0_r. destruct ok; exact Ii.
  - (* filter *)
    destruct (If d sources sends H1) as [Ef Er]. cbv zeta in Ef, Er.
    assert (Hrun := f_run_snoc (filter_of d) (List.length sources) e (map Some (polled d tr)) (st0 d) [] 0). cbv zeta in Hrun.
    set (r := f_run (filter_of d) (List.length sources) (map Some (polled d tr)) (st0 d) [] 0) in *.
    assert (Hns : fr_stopped r = false) by (rewrite Ef in H3; exact H3). specialize (Hrun Hns).
    rewrite received_some in Hrun. cbn [Nat.add] in Hrun.
    assert (Hturn : filter_turn proc d (List.length sources) (n_filter s d) e =
       let r' := f_run (filter_of d) (List.length sources) [Some e] (fr_state r) (fr_buffer r) (shutdowns (polled d tr)) in
       (mkFnode (fr_state r') (fr_buffer r') (shutdowns (polled d tr) + shutdowns [e]) (fr_stopped r'), fr_sent r')).
    { unfold filter_turn. rewrite Ef. cbn [fn_state fn_buf fn_shut]. rewrite shutdowns_one. reflexivity. }
    cbv zeta in Hturn.
    assert (Hrest := f_run_one_rest (filter_of d) (List.length sources) e (fr_state r) (fr_buffer r) (shutdowns (polled d tr))).
    set (r' := f_run (filter_of d) (List.length sources) [Some e] (fr_state r) (fr_buffer r) (shutdowns (polled d tr))) in *.
    rewrite Hturn. cbn [fst snd]. clear Hturn.
    assert (Hp : forall x, polled x (tr ++ [LPoll d e]) = polled x tr ++ if seqb x d then [e] else []).
    { intros x. rewrite polled_snoc. cbn [polled flat_map]. rewrite app_nil_r. reflexivity. }
    assert (Hs' : f_run (filter_of d) (List.length sources) (map Some (polled d (tr ++ [LPoll d e]))) (st0 d) [] 0 =
                  mkFres (fr_sent r ++ fr_sent r') (fr_stopped r') (fr_rest r') (fr_state r') (fr_buffer r')).
    { rewrite Hp, seqb_refl', map_app. exact Hrun. }
    split.
    + intros x. rewrite arrived_snoc, Hp. cbn [arrived flat_map n_queue set_out set_filter set_queue]. rewrite app_nil_r, Iq. unfold upd. rewrite (seqb_sym x d).
      destruct (seqb d x) eqn:E; [apply seqb_eq in E; subst; rewrite H4, <- app_assoc; reflexivity|rewrite app_nil_r; reflexivity].
    + intros u x. rewrite attempts_snoc. cbn [attempts flat_map n_out set_out set_filter set_queue]. rewrite !app_nil_r. unfold upd.
      assert (Hn := wf_nodup t W (Fil d)). cbn [sends_of] in Hn. rewrite H1 in Hn. cbn [snd] in Hn.
      destruct (weqb (Fil d) u) eqn:E.
      * apply weqb_eq in E. subst u. specialize (Il (Fil d) x). rewrite H2 in Il. cbn [sends_of said pend flat_map] in *. rewrite H1 in *. cbn [snd] in *. rewrite app_nil_r in Il. rewrite Il, pend_many by assumption.
        rewrite Hs'. cbn [fr_sent]. fold r. destruct (mem x sends); reflexivity.
      * rewrite Il. destruct (mem x (sends_of t u)); [|reflexivity]. destruct u as [i j|i|]; cbn [said].
        -- rewrite emitted_snoc. cbn [emitted flat_map]. rewrite !app_nil_r. reflexivity.
        -- cbn [weqb] in E. rewrite Hp, seqb_sym, E, app_nil_r. reflexivity.
        -- rewrite pulses_snoc. cbn. rewrite Nat.add_0_r. reflexivity.
    + intros x a b H. cbv zeta. cbn [n_filter set_out set_filter set_queue]. unfold upd. destruct (seqb d x) eqn:E.
      * apply seqb_eq in E. subst x. rewrite H1 in H. injection H as <- <-. rewrite Hs'. cbn [fr_state fr_buffer fr_stopped fr_rest]. split; [|exact Hrest].
        rewrite Hp, seqb_refl', shutdowns_app. reflexivity.
      * rewrite Hp, (seqb_sym x d), E, app_nil_r. exact (If x a b H).
    + intros x a H. rewrite Hp. destruct (seqb x d) eqn:E.
      * apply seqb_eq in E. subst x. rewrite (wf_apart t W d) in H; [discriminate|congruence].
      * rewrite app_nil_r. exact (Ik x a H).
    + rewrite pulses_snoc. cbn [pulses filter List.length]. rewrite Nat.add_0_r. exact Ii.
  - (* sink *)
    assert (Hp : forall x, polled x (tr ++ [LPoll d e]) = polled x tr ++ if seqb x d then [e] else []).
    { intros x. rewrite polled_snoc. cbn [polled flat_map]. rewrite app_nil_r. reflexivity. }
    assert (Hfs : forall x a b, alookup seqb x (t_filters t) = Some (a, b) -> seqb x d = false).
    { intros x a b H. destruct (seqb x d) eqn:E; [|reflexivity]. apply seqb_eq in E. subst x. rewrite (wf_apart t W d) in H1; [discriminate|congruence]. }
    split.
    + intros x. rewrite arrived_snoc, Hp. cbn [arrived flat_map n_queue set_sink set_queue]. rewrite app_nil_r, Iq. unfold upd. rewrite (seqb_sym x d).
      destruct (seqb d x) eqn:E; [apply seqb_eq in E; subst; rewrite H4, <- app_assoc; reflexivity|rewrite app_nil_r; reflexivity].
    + intros u x. rewrite attempts_snoc. cbn [attempts flat_map n_out set_sink set_queue]. rewrite !app_nil_r.
      rewrite Il. destruct (mem x (sends_of t u)); [|reflexivity]. destruct u as [i j|i|]; cbn [said].
      * rewrite emitted_snoc. cbn [emitted flat_map]. rewrite !app_nil_r. reflexivity.
      * destruct (alookup seqb i (t_filters t)) as [[a b]|] eqn:E; [|reflexivity]. rewrite Hp, (Hfs _ _ _ E), app_nil_r. reflexivity.
      * rewrite pulses_snoc. cbn. rewrite Nat.add_0_r. reflexivity.
    + intros x a b H. rewrite Hp, (Hfs _ _ _ H), app_nil_r. exact (If x a b H).
    + intros x a H. rewrite Hp. cbn [n_sink set_sink set_queue]. unfold upd. rewrite (seqb_sym d x). destruct (seqb x d) eqn:E; [|rewrite app_nil_r; exact (Ik x a H)].
      apply seqb_eq in E. subst x. rewrite H1 in H. injection H as <-. destruct (Ik d sources H1) as [Kq (ms & Km & Ka)].
      split.
      * cbn [sink_step sr_stopped sr_hand sr_queue]. rewrite H2, H3, Kq. reflexivity.
      * exists (ms ++ [Arrive e; Poll]). split.
        -- unfold sink_exec in *. rewrite fold_left_app, <- Km. reflexivity.
        -- unfold arrivals in *. rewrite flat_map_app, Ka. reflexivity.
    + rewrite pulses_snoc. cbn [pulses filter List.length]. rewrite Nat.add_0_r. exact Ii.
  - (* valve *)
    assert (Hp : forall x, polled x (tr ++ [LValve d o]) = polled x tr) by (intros x; rewrite polled_snoc; cbn; apply app_nil_r).
    split.
    + intros x. rewrite arrived_snoc, Hp. cbn. rewrite app_nil_r. apply Iq.
    + intros u x. rewrite attempts_snoc. cbn [attempts flat_map n_out set_sink]. rewrite !app_nil_r.
      rewrite Il. destruct (mem x (sends_of t u)); [|reflexivity]. destruct u as [i j|i|]; cbn [said].
      * rewrite emitted_snoc. cbn [emitted flat_map]. rewrite !app_nil_r. reflexivity.
      * rewrite Hp. reflexivity.
      * rewrite pulses_snoc. cbn. rewrite Nat.add_0_r. reflexivity.
    + intros x a b H. rewrite Hp. exact (If x a b H).
    + intros x a H. rewrite Hp. cbn [n_sink set_sink]. unfold upd. destruct (seqb d x) eqn:E; [|exact (Ik x a H)].
      apply seqb_eq in E. subst x. rewrite H1 in H. injection H as <-. destruct (Ik d sources H1) as [Kq (ms & Km & Ka)]. split.
      * unfold sink_step. rewrite H2, H3. destruct (inner_cases (List.length sources) (fint d) (n_sink s d) e o) as (? & ? & ? & ? & ? & -> & _). exact Kq.
      * exists (ms ++ [ValveSays o]). split.
        -- unfold sink_exec in *. rewrite fold_left_app, <- Km. reflexivity.
        -- unfold arrivals in *. rewrite flat_map_app, Ka. cbn. apply app_nil_r.
    + rewrite pulses_snoc. cbn [pulses filter List.length]. rewrite Nat.add_0_r. exact Ii.
Qed.
Lemma inv_run t tr s : wf t -> nrun t tr s -> inv t tr s.
Proof.
  intros W. induction 1 as [|tr s l s' _ IH St]; [|eapply inv_step; eauto].
  split.
  - reflexivity.
  - intros u d. cbn. destruct (mem d (sends_of t u)); [|reflexivity]. destruct u as [i k|i|]; try reflexivity. cbn. destruct (alookup seqb i (t_filters t)) as [[? ?]|]; reflexivity.
  - intros d a b H. split; reflexivity.
  - intros d a H. split; [reflexivity|]. exists []. split; reflexivity.
  - reflexivity.
Qed.

(** ** Counting markers *)
Lemma arrived_attempts u d tr : no_marker_dropped tr -> shutdowns (arrived_from u d tr) = shutdowns (attempts u d tr).
Proof.
  induction tr as [|l tr IH]; intros H; [reflexivity|].
  assert (H' : no_marker_dropped tr) by (intros v x Hin; apply (H v x); right; exact Hin). specialize (IH H').
  unfold arrived_from, attempts in *. cbn [flat_map]. rewrite !shutdowns_app, IH. f_equal.
  destruct l; try reflexivity. destruct ok; [reflexivity|]. destruct (weqb u u0 && seqb d d0) eqn:E; [|reflexivity].
  destruct e; try reflexivity. exfalso. apply (H u0 d0). left. reflexivity.
Qed.
Lemma arrived_attempts_all u d tr : no_drops tr -> arrived_from u d tr = attempts u d tr.
Proof.
  induction tr as [|l tr IH]; intros H; [reflexivity|].
  assert (H' : no_drops tr) by (intros v x e Hin; apply (H v x e); right; exact Hin). specialize (IH H').
  unfold arrived_from, attempts in *. cbn [flat_map]. rewrite IH. f_equal.
  destruct l; try reflexivity. destruct ok; [reflexivity|]. exfalso. apply (H u0 d0 e). left. reflexivity.
Qed.
Definition total (f : who -> nat) (us : list who) : nat := fold_right (fun u n => f u + n) 0 us.
Lemma total_add f h us : total (fun u => f u + h u) us = total f us + total h us.
Proof. induction us as [|u us IH]; [reflexivity|]. unfold total in *. cbn. lia. Qed.
Lemma total_zero f us : (forall u, In u us -> f u = 0) -> total f us = 0.
Proof. induction us as [|u us IH]; intros H; [reflexivity|]. change (total f (u :: us)) with (f u + total f us). rewrite (H u), IH; [reflexivity| |left; reflexivity]. intros v Hv. apply H. right. exact Hv. Qed.
Lemma total_point f us v m : NoDup us -> (forall u, u <> v -> f u = 0) -> f v <= m -> total f us <= m.
Proof.
  intros Hn H0 Hm. induction Hn as [|u us Hu _ IH]; [cbn; lia|]. change (total f (u :: us)) with (f u + total f us). destruct (weqb u v) eqn:E.
  - apply weqb_eq in E. subst u. rewrite (total_zero f us); [lia|]. intros x Hx. apply H0. intros ->. contradiction.
  - rewrite (H0 u); [exact IH|]. intros ->. rewrite weqb_refl in E. discriminate.
Qed.
Lemma total_ext f h us : (forall u, f u = h u) -> total f us = total h us.
Proof. intros H. induction us; cbn; [reflexivity|]. rewrite H. f_equal. exact IHus. Qed.
Lemma total_ge f us : (forall u, In u us -> 1 <= f u) -> List.length us <= total f us.
Proof. induction us as [|u us IH]; intros H; cbn; [lia|]. assert (1 <= f u) by (apply H; left; reflexivity). specialize (IH (fun v Hv => H v (or_intror Hv))). change (fold_right (fun u n => f u + n) 0 us) with (total f us). lia. Qed.
Lemma arrived_total d tr us : NoDup us -> total (fun u => shutdowns (arrived_from u d tr)) us <= shutdowns (arrived d tr).
Proof.
  intros Hn. induction tr as [|l tr IH].
  - rewrite total_zero; [apply le_n|]. reflexivity.
  - assert (E1 : arrived d (l :: tr) = arrived d [l] ++ arrived d tr) by (unfold arrived; cbn; rewrite app_nil_r; reflexivity).
    rewrite E1, shutdowns_app.
    rewrite (total_ext _ (fun u => shutdowns (arrived_from u d [l]) + shutdowns (arrived_from u d tr))).
    2:{ intros u. rewrite <- shutdowns_app. f_equal. unfold arrived_from. cbn. rewrite app_nil_r. reflexivity. }
    rewrite total_add. apply Nat.add_le_mono; [|exact IH].
    destruct l as [| | |v x e ok| |]; try (rewrite total_zero; [apply Nat.le_0_l|reflexivity]).
    apply (total_point _ us v); [exact Hn| |].
    + intros u Hu. unfold arrived_from. cbn. destruct ok; [|reflexivity]. rewrite (weqb_ne u v Hu). reflexivity.
    + unfold arrived_from, arrived. cbn. destruct ok; [|apply le_n]. rewrite weqb_refl. apply le_n.
Qed.

(** ** Markers of sources and filters *)
Lemma done_said t tr s : nrun t tr s -> forall id, n_done s id = true -> 1 <= shutdowns (emitted id 0 tr).
Proof.
  induction 1 as [|tr s l s' _ IH St]; intros id H; [discriminate|].
  rewrite emitted_snoc, shutdowns_app.
  destruct St as [i sends k e H1 H2 H3 H4|i sends H1 H2 H3|H1|u d e r ok H1|d sources sends e q H1 H2 H3 H4|d sources e q H1 H2 H3 H4|d sources o e H1 H2 H3]; cbn [n_done set_out set_done set_idx set_filter set_queue set_sink] in H;
    try (specialize (IH id H); lia).
  - unfold upd in H. destruct (seqb i id) eqn:E; [|specialize (IH id H); lia].
    unfold emitted at 2. cbn [flat_map]. rewrite (seqb_sym id i), E. cbn. lia.
  - destruct ok; specialize (IH id H); lia.
Qed.
Lemma stopped_sends F n polls : forall st buf shut, fr_stopped (f_run F n polls st buf shut) = true -> 1 <= shutdowns (fr_sent (f_run F n polls st buf shut)).
Proof.
  induction polls as [|[e|] polls IH]; intros st buf shut; [discriminate| |exact (IH st buf shut)].
  destruct (is_shutdown e) eqn:E.
  - destruct e; try discriminate E. cbn [f_run]. destruct (n <=? shut + 1); intros _; cbn [fr_sent]; unfold shutdowns; cbn; lia.
  - destruct e; try discriminate E; cbn [f_run]; (destruct (f_process F st _) as [[st' pushed] [fe|]];
      cbn [fr_stopped fr_sent]; intros H; specialize (IH _ _ _ H); [change (fe :: ?l) with ([fe] ++ l)|]; rewrite shutdowns_app; lia).
Qed.

Section Stop.
Variable g : config.
Variable t : started.
Hypothesis Hd : distinct_ids g.
Hypothesis Hw : wire g = Going t.
Let W : wf t := wired_wf g t Hd Hw.

(** the thread of a node that sends its markers *)
Definition speaker (id : string) : who := if mem id (map fst (g_filters g)) then Fil id else Src id 0.
Lemma speaker_inj a b : speaker a = speaker b -> a = b.
Proof. unfold speaker. destruct (mem a _), (mem b _); congruence. Qed.
Lemma speaker_thread a : thread_of a (speaker a).
Proof. unfold speaker. destruct (mem a _); reflexivity. Qed.
Lemma NoDup_speakers l : NoDup l -> NoDup (map speaker l).
Proof.
  induction 1 as [|x l Hx _ IH]; [constructor|]. cbn. constructor; [|exact IH]. intros H. apply in_map_iff in H as (y & E & Hy). apply speaker_inj in E. subst. contradiction.
Qed.
(** [sends_of] the threads of a node are its forwards *)
Lemma sends_upstream w v : mem v (sends_of t w) = true -> w = Tim \/ exists u, thread_of u w /\ upstream g u v.
Proof.
  intros H. apply mem_In in H. destruct w as [id k|id|]; cbn in H; [| |left; reflexivity]; right; exists id; (split; [reflexivity|]).
  - destruct (alookup seqb id (t_sources t)) as [l|] eqn:E; [|contradiction]. destruct (source_lookup g t Hd Hw _ _ E) as (fw & Hin & [_ L]).
    exists fw. split; [unfold senders_of; apply in_or_app; right; exact Hin|apply L, H].
  - destruct (alookup seqb id (t_filters t)) as [[a b]|] eqn:E; [|contradiction]. destruct (filter_lookup g t Hd Hw _ _ _ E) as (fw & Hin & [_ L] & _).
    exists fw. split; [unfold senders_of; apply in_or_app; left; exact Hin|apply L, H].
Qed.
Lemma sender_kind u fw : In (u, fw) (senders_of g) -> (In (u, fw) (g_filters g) /\ ~ In u (map fst (g_natives g ++ g_sources g))) \/ (In (u, fw) (g_natives g ++ g_sources g) /\ ~ In u (map fst (g_filters g))).
Proof.
  intros H. assert (Hn := Hd). unfold distinct_ids in Hn. apply NoDup_app_r in Hn. unfold senders_of in Hn, H. rewrite map_app in Hn.
  apply in_app_or in H. destruct H as [H|H]; [left|right]; (split; [exact H|]); intros H'.
  - apply (NoDup_app_dis _ _ u Hn H'). exact (in_map fst _ _ H).
  - apply (NoDup_app_dis _ _ u Hn); [exact (in_map fst _ _ H)|exact H'].
Qed.
Lemma upstream_sends w u v : thread_of u w -> upstream g u v -> (match w with Fil _ => In u (map fst (g_filters g)) | _ => ~ In u (map fst (g_filters g)) end) -> mem v (sends_of t w) = true.
Proof.
  intros Ht (fw & Hin & Hv) Hk. apply mem_In. destruct w as [id k|id|]; cbn in Ht; subst; cbn; [| |contradiction].
  - destruct (sender_kind _ _ Hin) as [[H _]|[H _]]; [destruct Hk; exact (in_map fst _ _ H)|].
    destruct (source_found g t Hd Hw u (in_map fst _ _ H)) as (sends & fw' & -> & Hin' & [_ L]). apply L.
    rewrite (senders_unique g Hd u fw' fw); [exact Hv|unfold senders_of; apply in_or_app; right; exact Hin'|exact Hin].
  - destruct (filter_found g t Hd Hw u Hk) as (a & b & E). rewrite E. destruct (filter_lookup g t Hd Hw _ _ _ E) as (fw' & Hin' & [_ L] & _). apply L.
    rewrite (senders_unique g Hd u fw' fw); [exact Hv|unfold senders_of; apply in_or_app; left; exact Hin'|exact Hin].
Qed.
Lemma speaker_sends u v : upstream g u v -> mem v (sends_of t (speaker u)) = true.
Proof.
  intros H. apply (upstream_sends _ u v); [apply speaker_thread|exact H|]. unfold speaker.
  destruct (mem u _) eqn:E; [apply mem_In; exact E|]. intros H'. apply mem_In in H'. congruence.
Qed.

(** the marker of a node that is over *)
Lemma over_said tr s u v : nrun t tr s -> over g s u -> upstream g u v -> 1 <= shutdowns (said t tr (speaker u)).
Proof.
  intros R (O1 & O2 & _) (fw & Hin & _). unfold speaker. destruct (mem u (map fst (g_filters g))) eqn:E.
  - apply mem_In in E. specialize (O2 E). destruct (filter_found g t Hd Hw u E) as (a & b & El). cbn [said]. rewrite El.
    destruct (i_filter _ _ _ (inv_run _ _ _ W R) u a b El) as [Ef _]. cbv zeta in Ef. rewrite Ef in O2. cbn in O2. apply stopped_sends. exact O2.
  - cbn [said]. eapply done_said; [exact R|]. apply O1. destruct (sender_kind _ _ Hin) as [[H _]|[H _]]; [|exact (in_map fst _ _ H)].
    exfalso. assert (mem u (map fst (g_filters g)) = true) by (apply mem_In; exact (in_map fst _ _ H)). congruence.
Qed.
(** what a filter that got enough markers does *)
Lemma filter_must_stop tr s id sources sends : nrun t tr s -> alookup seqb id (t_filters t) = Some (sources, sends) ->
  Nat.max 1 (List.length sources) <= shutdowns (polled id tr) -> fn_stopped (n_filter s id) = true.
Proof.
  intros R El H. destruct (i_filter _ _ _ (inv_run _ _ _ W R) id sources sends El) as [-> _]. cbn [fn_stopped].
  destruct (f_run_stop (filter_of id) (List.length sources) (map Some (polled id tr)) (st0 id) [] 0) as (E & _); [lia|]. cbv zeta in E.
  rewrite E, received_some. apply Nat.leb_le. lia.
Qed.
Lemma sink_marker_seen tr s id sources : nrun t tr s -> alookup seqb id (t_sinks t) = Some sources ->
  exists done, polled id tr = done ++ (if sr_stopped (n_sink s id) then [EShutdown] else in_hand (n_sink s id)) /\ shutdowns done = 0 /\
    delivered (sr_calls (n_sink s id)) = filter is_data done.
Proof.
  intros R El. destruct (i_sink _ _ _ (inv_run _ _ _ W R) id sources El) as [Kq (ms & Km & Ka)].
  destruct (sink_shut (List.length sources) (fint id) ms sink_start []) as (done & E & H1 & H2); [exists []; repeat split|].
  rewrite <- Km in E, H2. rewrite Kq, app_nil_r in E. cbn [app] in E. exists done. rewrite <- Ka. auto.
Qed.

Lemma rest_over tr s : nrun t tr s -> no_marker_dropped tr -> at_rest proc fint t s -> forall id, fed g id -> over g s id.
Proof.
  intros R Hm Hr.
  assert (I := inv_run _ _ _ W R).
  assert (Hout : forall u, n_out s u = []).
  { intros u. destruct (n_out s u) as [|[d e] r] eqn:E; [reflexivity|]. assert (X := Hr _ _ (step_copy proc fint t s u d e r true E)). discriminate X. }
  assert (Hatt : forall u v, upstream g u v -> over g s u -> 1 <= shutdowns (arrived_from (speaker u) v tr)).
  { intros u v Hu Ho. rewrite arrived_attempts by exact Hm. assert (L := i_link _ _ _ I (speaker u) v). rewrite Hout in L. cbn [pend flat_map] in L.
    rewrite app_nil_r, (speaker_sends u v Hu) in L. rewrite L. eapply over_said; eauto. }
  induction 1 as [id Hs|id u Hk Hu _ IHu|id fw u Hf Hu _ IHu _ IHall].
  - split; [intros _|split; intros H].
    + destruct (source_found g t Hd Hw id Hs) as (sends & fw & E & _). destruct (n_done s id) eqn:En; [reflexivity|].
      assert (X := Hr _ _ (step_stop proc fint t s id sends E En (fun k => Hout _))). discriminate X.
    + exfalso. apply in_map_iff in H as ([i fw] & <- & H). destruct (sender_kind i fw) as [[_ A]|[_ A]]; [unfold senders_of; apply in_or_app; auto|exact (A Hs)|apply A; exact (in_map fst _ _ H)].
    + exfalso. apply in_map_iff in Hs as ([i fw] & <- & Hs). apply (sink_not_sender g Hd i fw H). unfold senders_of. apply in_or_app. auto.
  - split; [|split]; intros H.
    + exfalso. apply in_map_iff in H as ([i fw] & <- & H). apply (sink_not_sender g Hd i fw Hk). unfold senders_of. apply in_or_app. auto.
    + exfalso. apply in_map_iff in H as ([i fw] & <- & H). apply (sink_not_sender g Hd i fw Hk). unfold senders_of. apply in_or_app. auto.
    + destruct (sr_stopped (n_sink s id)) eqn:Es; [reflexivity|]. exfalso. destruct (sink_found g t Hd Hw id Hk) as (sources & El).
      assert (Eh : sr_hand (n_sink s id) = None).
      { destruct (sr_hand (n_sink s id)) as [e|] eqn:Eh; [|reflexivity]. assert (X := Hr _ _ (step_valve proc fint t s id sources true e El Es Eh)). discriminate X. }
      assert (Eq : n_queue s id = []).
      { destruct (n_queue s id) as [|e q] eqn:Eq; [reflexivity|]. assert (X := Hr _ _ (step_sink proc fint t s id sources e q El Es Eh Eq)). discriminate X. }
      destruct (sink_marker_seen tr s id sources R El) as (done & Ep & Hz & _). rewrite Es in Ep. unfold in_hand in Ep. rewrite Eh, app_nil_r in Ep.
      assert (Ea := i_queue _ _ _ I id). rewrite Eq, app_nil_r, Ep in Ea.
      assert (T := arrived_total id tr [speaker u] ltac:(constructor; [intros []|constructor])). cbn [total fold_right] in T. rewrite Ea, Hz in T.
      specialize (Hatt u id Hu IHu). lia.
  - split; [|split]; intros H.
    + exfalso. destruct (sender_kind id fw) as [[_ A]|[_ A]]; [unfold senders_of; apply in_or_app; auto|exact (A H)|apply A; exact (in_map fst _ _ Hf)].
    + destruct (fn_stopped (n_filter s id)) eqn:Es; [reflexivity|]. exfalso. destruct (filter_found g t Hd Hw id H) as (sources & sends & El).
      assert (Eq : n_queue s id = []).
      { destruct (n_queue s id) as [|e q] eqn:Eq; [reflexivity|]. assert (X := Hr _ _ (step_filter proc fint t s id sources sends e q El (Hout _) Es Eq)). discriminate X. }
      assert (Ea := i_queue _ _ _ I id). rewrite Eq, app_nil_r in Ea.
      enough (Hn : Nat.max 1 (List.length sources) <= shutdowns (polled id tr)) by (rewrite (filter_must_stop tr s id sources sends R El Hn) in Es; discriminate).
      rewrite <- Ea. apply Nat.max_lub.
      * assert (T := arrived_total id tr [speaker u] ltac:(constructor; [intros []|constructor])). cbn [total fold_right] in T. specialize (Hatt u id Hu IHu). lia.
      * destruct (filter_lookup g t Hd Hw _ _ _ El) as (fw' & Hin & _ & [Hnd Hl]).
        assert (fw' = fw) by (apply (senders_unique g Hd id); unfold senders_of; apply in_or_app; auto). subst fw'.
        etransitivity; [|apply (arrived_total id tr (map speaker sources)); apply NoDup_speakers; exact Hnd].
        rewrite <- (map_length speaker sources). apply total_ge. intros w Hin'. apply in_map_iff in Hin' as (x & <- & Hx). apply Hl in Hx as [Hx1 Hx2].
        apply Hatt; [exact Hx1|]. apply IHall; assumption.
    + exfalso. apply (sink_not_sender g Hd id fw H). unfold senders_of. apply in_or_app. auto.
Qed.

(** nobody forwards to it *)
Lemma unfed_silent tr s d : nrun t tr s -> (forall u, ~ upstream g u d) -> arrived d tr = [].
Proof.
  intros R Hno. assert (I := inv_run _ _ _ W R).
  assert (A : forall w, attempts w d tr = []).
  { intros w. assert (L := i_link _ _ _ I w d). destruct (mem d (sends_of t w)) eqn:E.
    - exfalso. destruct (sends_upstream w d E) as [->|(u & _ & Hu)]; [|exact (Hno u Hu)].
      apply mem_In in E. cbn in E. apply (proj2 (C51_timer g t Hd Hw)) in E as (id & fw & Hin & Hv). apply (Hno id). exists fw. split; [|exact Hv]. unfold senders_of. apply in_or_app. auto.
    - apply app_eq_nil in L. tauto. }
  clear -A. induction tr as [|l tr IH]; [reflexivity|].
  assert (A' : forall w, attempts w d tr = []) by (intros w; specialize (A w); unfold attempts in A; cbn [flat_map] in A; apply app_eq_nil in A; tauto).
  unfold arrived in *. cbn [flat_map]. rewrite (IH A'), app_nil_r. destruct l as [| | |u x e ok| |]; try reflexivity. destruct ok; [|reflexivity].
  specialize (A u). unfold attempts in A. cbn [flat_map] in A. rewrite weqb_refl in A. cbn [andb] in A. destruct (seqb d x); [discriminate A|reflexivity].
Qed.
Lemma unfed_runs tr s d : nrun t tr s -> (forall u, ~ upstream g u d) ->
  (In d (map fst (g_filters g)) -> fn_stopped (n_filter s d) = false) /\ (In d (g_sinks g) -> sr_stopped (n_sink s d) = false).
Proof.
  intros R Hno. assert (I := inv_run _ _ _ W R). assert (E := unfed_silent tr s d R Hno).
  assert (Ep : polled d tr = []) by (rewrite (i_queue _ _ _ I d) in E; apply app_eq_nil in E; tauto). split; intros H.
  - destruct (filter_found g t Hd Hw d H) as (a & b & El). destruct (i_filter _ _ _ I d a b El) as [-> _]. rewrite Ep. reflexivity.
  - destruct (sink_found g t Hd Hw d H) as (a & El). destruct (sink_marker_seen tr s d a R El) as (done & Ed & _). rewrite Ep in Ed.
    destruct (sr_stopped (n_sink s d)); [|reflexivity]. destruct done; discriminate Ed.
Qed.

(** ** Orderly shutdown *)
Inductive nsteps (s : net) : list label -> net -> Prop :=
| steps_nil : nsteps s [] s
| steps_snoc tr s1 l s2 : nsteps s tr s1 -> nstep t s1 l s2 -> nsteps s (tr ++ [l]) s2.
Lemma run_split tr2 : forall tr1 s, nrun t (tr1 ++ tr2) s -> exists s1, nrun t tr1 s1 /\ nsteps s1 tr2 s.
Proof.
  induction tr2 as [|l tr2 IH] using rev_ind; intros tr1 s R.
  - rewrite app_nil_r in R. exists s. split; [exact R|constructor].
  - rewrite app_assoc in R. inversion R as [E|tr s0 l' s' R0 St E E']; [destruct tr1; [destruct tr2|]; discriminate E|].
    apply app_inj_tail in E as [-> ->]. destruct (IH tr1 s0 R0) as (s1 & R1 & N). exists s1. split; [exact R1|]. econstructor; eauto.
Qed.
Lemma run_app tr1 s1 tr2 s : nrun t tr1 s1 -> nsteps s1 tr2 s -> nrun t (tr1 ++ tr2) s.
Proof.
  intros R N. induction N as [|tr2 s2 l s3 _ IH St]; [rewrite app_nil_r; exact R|]. rewrite app_assoc. econstructor; eauto.
Qed.

Lemma over_step s l s' id : nstep t s l s' -> over g s id -> over g s' id.
Proof.
  intros St (O1 & O2 & O3).
  destruct St as [i sends k e H1 H2 H3 H4|i sends H1 H2 H3|H1|u d e r ok H1|d sources sends e q H1 H2 H3 H4|d sources e q H1 H2 H3 H4|d sources o e H1 H2 H3];
    unfold over; cbn [n_done n_filter n_sink set_out set_done set_idx set_filter set_queue set_sink]; try (split; [|split]; assumption).
  - split; [|split; assumption]. intros H. unfold upd. destruct (seqb i id); [reflexivity|auto].
  - destruct ok; (split; [|split]; assumption).
  - split; [assumption|split; [|assumption]]. intros H. specialize (O2 H). unfold upd. destruct (seqb d id) eqn:E; [|exact O2]. apply seqb_eq in E. subst. congruence.
  - split; [assumption|split; [assumption|]]. intros H. specialize (O3 H). unfold upd. destruct (seqb d id) eqn:E; [|exact O3]. apply seqb_eq in E. subst. congruence.
  - split; [assumption|split; [assumption|]]. intros H. specialize (O3 H). unfold upd. destruct (seqb d id) eqn:E; [|exact O3]. apply seqb_eq in E. subst. congruence.
Qed.
Lemma source_known id k v : mem v (sends_of t (Src id k)) = true -> In id (map fst (g_natives g ++ g_sources g)).
Proof.
  intros H. apply mem_In in H. cbn in H. destruct (alookup seqb id (t_sources t)) eqn:E; [|contradiction].
  destruct (source_lookup g t Hd Hw _ _ E) as (fw & Hin & _). exact (in_map fst _ _ Hin).
Qed.
Lemma filter_known id v : mem v (sends_of t (Fil id)) = true -> In id (map fst (g_filters g)).
Proof.
  intros H. apply mem_In in H. cbn in H. destruct (alookup seqb id (t_filters t)) as [[a b]|] eqn:E; [|contradiction].
  destruct (filter_lookup g t Hd Hw _ _ _ E) as (fw & Hin & _). exact (in_map fst _ _ Hin).
Qed.
Lemma filter_not_sink id : In id (map fst (g_filters g)) -> alookup seqb id (t_sinks t) = None.
Proof. intros H. apply (wf_apart t W). destruct (filter_found g t Hd Hw id H) as (a & b & ->). discriminate. Qed.
(** a node that is over says nothing more *)
Lemma frozen_step tr s l s' u w v : nstep t s l s' -> over g s u -> thread_of u w -> mem v (sends_of t w) = true -> said t (tr ++ [l]) w = said t tr w.
Proof.
  intros St (O1 & O2 & O3) Ht Hm. destruct w as [id k|id|]; cbn in Ht; subst; [| |contradiction].
  - specialize (O1 (source_known _ _ _ Hm)). cbn [said]. rewrite emitted_snoc. rewrite <- (app_nil_r (emitted u k tr)) at 2. f_equal.
    destruct St as [i sends j e H1 H2 H3 H4|i sends H1 H2 H3|H1|u' d e r ok H1|d sources sends e q H1 H2 H3 H4|d sources e q H1 H2 H3 H4|d sources o e H1 H2 H3]; try reflexivity;
      cbn [emitted flat_map]; (destruct (seqb u i) eqn:E; [apply seqb_eq in E; subst; congruence|reflexivity]).
  - assert (Hf := filter_known _ _ Hm). specialize (O2 Hf). cbn [said]. destruct (alookup seqb u (t_filters t)) as [[a b]|] eqn:El; [|reflexivity].
    enough (Ep : polled u (tr ++ [l]) = polled u tr) by (rewrite Ep; reflexivity). rewrite polled_snoc. rewrite <- (app_nil_r (polled u tr)) at 2. f_equal.
    destruct St as [i sends j e H1 H2 H3 H4|i sends H1 H2 H3|H1|u' d e r ok H1|d sources sends e q H1 H2 H3 H4|d sources e q H1 H2 H3 H4|d sources o e H1 H2 H3]; try reflexivity;
      cbn [polled flat_map]; (destruct (seqb u d) eqn:E; [apply seqb_eq in E; subst|reflexivity]); [congruence|].
    rewrite (filter_not_sink d Hf) in H1. discriminate.
Qed.
Lemma frozen_steps s l s' u w v : nsteps s l s' -> forall tr, over g s u -> thread_of u w -> mem v (sends_of t w) = true -> over g s' u /\ said t (tr ++ l) w = said t tr w.
Proof.
  induction 1 as [|l s1 x s2 _ IH St]; intros tr Ho Ht Hm; [rewrite app_nil_r; auto|].
  destruct (IH tr Ho Ht Hm) as [Ho1 E]. split; [eapply over_step; eauto|]. rewrite app_assoc, <- E. eapply frozen_step; eauto.
Qed.

(** markers come last *)
Definition ends_once (b : bool) (l : list event) : Prop := if b then announces_once l else shutdowns l = 0.
Lemma source_markers tr s : nrun t tr s -> forall id,
  ends_once (n_done s id) (emitted id 0 tr) /\ (forall k, shutdowns (emitted id (Datatypes.S k) tr) = 0) /\
  (n_done s id = true -> forall k, n_out s (Src id (Datatypes.S k)) = []).
Proof.
  induction 1 as [|tr s l s' _ IH St]; intros id; [split; [reflexivity|split; [reflexivity|discriminate]]|].
  destruct (IH id) as (A & B & C). clear IH.
  assert (Hsame : (forall k, emitted id k [l] = []) -> n_done s' id = n_done s id -> (n_done s id = true -> forall k, n_out s' (Src id (Datatypes.S k)) = []) ->
     ends_once (n_done s' id) (emitted id 0 (tr ++ [l])) /\ (forall k, shutdowns (emitted id (Datatypes.S k) (tr ++ [l])) = 0) /\
     (n_done s' id = true -> forall k, n_out s' (Src id (Datatypes.S k)) = [])).
  { intros E1 E2 E3. rewrite E2. split; [|split].
    - rewrite emitted_snoc, E1, app_nil_r. exact A.
    - intros k. rewrite emitted_snoc, E1, app_nil_r. apply B.
    - exact E3. }
  destruct St as [i sends k e H1 H2 H3 H4|i sends H1 H2 H3|H1|u d e r ok H1|d sources sends e q H1 H2 H3 H4|d sources e q H1 H2 H3 H4|d sources o e H1 H2 H3].
  - destruct (seqb id i) eqn:E.
    + apply seqb_eq in E. subst i. cbn [n_done set_out]. rewrite H2 in *. cbn [ends_once] in *.
      assert (Ee : shutdowns [e] = 0) by (destruct e; try discriminate H4; reflexivity).
      split; [|split; [|discriminate]].
      * rewrite emitted_snoc, shutdowns_app, A. unfold emitted. cbn [flat_map]. rewrite seqb_refl'. cbn [andb]. rewrite app_nil_r. destruct (0 =? k); [exact Ee|reflexivity].
      * intros j. rewrite emitted_snoc, shutdowns_app, B. unfold emitted. cbn [flat_map]. rewrite seqb_refl'. cbn [andb]. rewrite app_nil_r. destruct (Datatypes.S j =? k); [exact Ee|reflexivity].
    + apply Hsame; [intros j; cbn; rewrite E; reflexivity|reflexivity|]. intros Hdn j. cbn [n_out set_out]. unfold upd. cbn [weqb]. rewrite (seqb_sym i id), E. cbn. exact (C Hdn j).
  - destruct (seqb id i) eqn:E.
    + apply seqb_eq in E. subst i. cbn [n_done set_out set_done]. unfold upd at 1 2. rewrite seqb_refl'. rewrite H2 in A. cbn [ends_once] in A. split; [|split].
      * exists (emitted id 0 tr). split; [|exact A]. rewrite emitted_snoc. f_equal. cbn. rewrite seqb_refl'. reflexivity.
      * intros k. rewrite emitted_snoc, shutdowns_app, B. cbn. rewrite seqb_refl'. reflexivity.
      * intros _ k. cbn [n_out set_out set_done]. unfold upd. cbn [weqb]. rewrite seqb_refl'. cbn. apply H3.
    + apply Hsame; [intros j; cbn; rewrite E; reflexivity| |].
      * cbn [n_done set_out set_done]. unfold upd. rewrite (seqb_sym i id), E. reflexivity.
      * intros Hdn j. cbn [n_out set_out set_done]. unfold upd. cbn [weqb]. rewrite (seqb_sym i id), E. cbn. exact (C Hdn j).
  - apply Hsame; [reflexivity|reflexivity|exact C].
  - apply Hsame; [reflexivity|destruct ok; reflexivity|]. intros Hdn j. specialize (C Hdn j). replace (n_out (set_out u r (if ok then set_queue d (n_queue s d ++ [e]) s else s))) with (upd weqb u r (n_out s)) by (destruct ok; reflexivity).
    unfold upd. destruct (weqb u (Src id (Datatypes.S j))) eqn:E; [|exact C]. apply weqb_eq in E. subst u. congruence.
  - apply Hsame; [reflexivity|reflexivity|exact C].
  - apply Hsame; [reflexivity|reflexivity|exact C].
  - apply Hsame; [reflexivity|reflexivity|exact C].
Qed.
Lemma filter_markers id n polls st : quiet_filter (filter_of id) st -> n <= 1 -> forall buf, shutdowns buf = 0 ->
  let r := f_run (filter_of id) n polls st buf 0 in ends_once (fr_stopped r) (fr_sent r).
Proof.
  intros (good & Hg & Hq) Hn. cbv zeta. revert st Hg. induction polls as [|[e|] polls IH]; intros st Hg buf Hb; [reflexivity| |exact (IH st Hg buf Hb)].
  destruct (is_shutdown e) eqn:E.
  - destruct e; try discriminate E. cbn [f_run Nat.add]. replace (n <=? 1) with true by (symmetry; apply Nat.leb_le; exact Hn). exists []. split; reflexivity.
  - destruct (Hq st e Hg E) as (Hg' & Hp & He). cbn [filter_of f_process] in Hg', Hp, He.
    assert (Eq : f_run (filter_of id) n (Some e :: polls) st buf 0 =
        let '(st', pushed, err) := proc id st e in
        match err with
        | None => let res := f_run (filter_of id) n polls st' [] 0 in mkFres ((buf ++ pushed) ++ fr_sent res) (fr_stopped res) (fr_rest res) (fr_state res) (fr_buffer res)
        | Some fe => let res := f_run (filter_of id) n polls st' (buf ++ pushed) 0 in mkFres (fe :: fr_sent res) (fr_stopped res) (fr_rest res) (fr_state res) (fr_buffer res)
        end) by (destruct e; try discriminate E; reflexivity).
    rewrite Eq. clear Eq. destruct (proc id st e) as [[st' pushed] [fe|]]; cbn [fst snd] in *; cbv zeta; cbn [fr_stopped fr_sent].
    + assert (Hb' : shutdowns (buf ++ pushed) = 0) by (rewrite shutdowns_app, Hb, Hp; reflexivity). specialize (IH st' Hg' (buf ++ pushed) Hb').
      assert (He' : shutdowns [fe] = 0) by (unfold shutdowns; cbn; rewrite (He fe eq_refl); reflexivity). change (fe :: ?l) with ([fe] ++ l).
      destruct (fr_stopped _); cbn [ends_once] in *.
      * destruct IH as (x & -> & Hx). exists ([fe] ++ x). split; [apply app_assoc|]. rewrite shutdowns_app, He', Hx. reflexivity.
      * rewrite shutdowns_app, He', IH. reflexivity.
    + specialize (IH st' Hg' [] eq_refl). assert (Hb' : shutdowns (buf ++ pushed) = 0) by (rewrite shutdowns_app, Hb, Hp; reflexivity).
      destruct (fr_stopped _); cbn [ends_once] in *.
      * destruct IH as (x & -> & Hx). exists ((buf ++ pushed) ++ x). split; [apply app_assoc|]. rewrite shutdowns_app, Hb', Hx. reflexivity.
      * rewrite shutdowns_app, Hb', IH. reflexivity.
Qed.
Lemma arrived_at d e b q : forall tr, arrived d tr = b ++ e :: q -> exists tr1 w tr2, tr = tr1 ++ LCopy w d e true :: tr2 /\ arrived d tr1 = b /\ arrived d tr2 = q.
Proof.
  intros tr. revert b. induction tr as [|l tr IH]; intros b H; [destruct b; discriminate H|].
  assert (E1 : arrived d (l :: tr) = arrived d [l] ++ arrived d tr) by (unfold arrived; cbn; rewrite app_nil_r; reflexivity).
  rewrite E1 in H.
  assert (Hskip : forall b', arrived d tr = b' ++ e :: q -> b = arrived d [l] ++ b' -> exists tr1 w tr2, l :: tr = tr1 ++ LCopy w d e true :: tr2 /\ arrived d tr1 = b /\ arrived d tr2 = q).
  { intros b' Hb' ->. destruct (IH b' Hb') as (tr1 & w & tr2 & -> & <- & <-). exists (l :: tr1), w, tr2. split; [reflexivity|]. split; [|reflexivity]. unfold arrived. cbn. rewrite app_nil_r. reflexivity. }
  destruct (arrived d [l]) as [|x [|y r]] eqn:El.
  - apply (Hskip b); [exact H|reflexivity].
  - destruct b as [|x' b].
    + injection H as -> H. destruct l as [| | |w d' e' ok| |]; try discriminate El. cbn in El. destruct ok; [|discriminate El]. destruct (seqb d d') eqn:E; [|discriminate El].
      apply seqb_eq in E. subst d'. injection El as ->. exists [], w, tr. auto.
    + injection H as <- H. apply (Hskip b); [exact H|reflexivity].
  - exfalso. destruct l as [| | |w d' e' ok| |]; try discriminate El. cbn in El. destruct ok; [|discriminate El]. destruct (seqb d d'); discriminate El.
Qed.
Lemma marker_free_snoc (a p x : list event) : a ++ EShutdown :: p = x ++ [EShutdown] -> shutdowns x = 0 -> a = x /\ p = [].
Proof.
  revert x. induction a as [|y a IH]; intros x E H; cbn in E.
  - destruct x as [|z x]; cbn in E; [injection E as ->; auto|]. injection E as <- E. discriminate H.
  - destruct x as [|z x]; cbn in E; [injection E as -> E; destruct a; discriminate E|]. injection E as <- E.
    destruct (IH x E) as [-> ->]; [|auto]. change (y :: x) with ([y] ++ x) in H. rewrite shutdowns_app in H. lia.
Qed.

Lemma single_length l d (P : string -> Prop) : single_upstreams g -> lists l P -> (forall u, P u -> upstream g u d) -> List.length l <= 1.
Proof.
  intros Hs [Hn Hl] Hp. destruct l as [|a [|b l]]; cbn; try lia. exfalso.
  assert (a = b) by (apply (Hs a b d); apply Hp, Hl; cbn; auto). subst. inversion Hn as [|? ? Ha _]. apply Ha. left. reflexivity.
Qed.
Lemma halted_polled tr s d : nrun t tr s -> single_upstreams g -> halted g s d -> exists b, polled d tr = b ++ [EShutdown] /\ shutdowns b = 0.
Proof.
  intros R Hs [[H1 H2]|[H1 H2]].
  - destruct (filter_found g t Hd Hw d H1) as (sources & sends & El). destruct (i_filter _ _ _ (inv_run _ _ _ W R) d sources sends El) as [Ef Er].
    rewrite Ef in H2. cbn [fn_stopped] in H2. destruct (filter_lookup g t Hd Hw _ _ _ El) as (fw & _ & _ & Hl).
    assert (Hlen : List.length sources <= 1) by (apply (single_length _ d _ Hs Hl); intros x [Hx _]; exact Hx).
    destruct (C17_filter_stops_on_nth_shutdown Q (filter_of d) (List.length sources) (map Some (polled d tr)) (st0 d)) as [_ (before & E & _ & Hb & _)].
    rewrite Er, received_some in E. cbn in E. rewrite app_nil_r in E. destruct (Hb H2) as (b & -> & Hz). exists b. split; [exact E|]. rewrite Hz. lia.
  - destruct (sink_found g t Hd Hw d H1) as (sources & El). destruct (sink_marker_seen tr s d sources R El) as (done & Ep & Hz & _). rewrite H2 in Ep. eauto.
Qed.
Lemma tim_said tr e : In e (said t tr Tim) -> is_pulse e.
Proof. cbn. intros H. apply in_map_iff in H as (i & <- & _). eexists. reflexivity. Qed.
Lemma attempts_app u d a b : attempts u d (a ++ b) = attempts u d a ++ attempts u d b.
Proof. apply flat_map_app. Qed.
Lemma speaking tr s u w v : nrun t tr s -> quiet proc st0 -> single_upstreams g -> thread_of u w -> mem v (sends_of t w) = true -> In EShutdown (said t tr w) ->
  over g s u /\ announces_once (said t tr w) /\ (forall w', thread_of u w' -> mem v (sends_of t w') = true -> w' <> w -> n_out s w' = []).
Proof.
  intros R Hq Hs Ht Hm Hin.
  assert (Hpos : forall l, In EShutdown l -> shutdowns l <> 0).
  { intros l H. apply in_split in H as (a & b & ->). rewrite shutdowns_app. unfold shutdowns at 2. cbn. lia. }
  destruct w as [id k|id|]; cbn in Ht; subst; [| |contradiction].
  - assert (Hk := source_known _ _ _ Hm). destruct (source_markers tr s R u) as (A & B & C). cbn [said] in *.
    destruct k as [|k]; [|exfalso; apply (Hpos _ Hin); apply B].
    destruct (n_done s u) eqn:Ed; [|exfalso; apply (Hpos _ Hin); exact A].
    assert (Hnf : ~ In u (map fst (g_filters g))).
    { intros H. apply in_map_iff in H as ([i fw] & <- & H). destruct (sender_kind i fw) as [[_ X]|[_ X]]; [unfold senders_of; apply in_or_app; auto|exact (X Hk)|apply X; exact (in_map fst _ _ H)]. }
    split; [split; [intros _; exact Ed|split; [intros H; contradiction|]]|split; [exact A|]].
    + intros H. exfalso. apply in_map_iff in Hk as ([i fw] & <- & Hk). apply (sink_not_sender g Hd i fw H). unfold senders_of. apply in_or_app. auto.
    + intros [i j|i|] Ht' Hm' Hne; cbn in Ht'; subst; [|exfalso; apply Hnf; exact (filter_known _ _ Hm')|contradiction]. destruct j as [|j]; [congruence|]. apply C. reflexivity.
  - assert (Hf := filter_known _ _ Hm). destruct (filter_found g t Hd Hw u Hf) as (sources & sends & El).
    destruct (i_filter _ _ _ (inv_run _ _ _ W R) u sources sends El) as [Ef _]. cbn [said] in *. rewrite El in *.
    destruct (filter_lookup g t Hd Hw _ _ _ El) as (fw & Hin' & _ & Hl).
    assert (Hlen : List.length sources <= 1) by (apply (single_length _ u _ Hs Hl); intros x [Hx _]; exact Hx).
    assert (F := filter_markers u (List.length sources) (map Some (polled u tr)) (st0 u) (Hq u) Hlen [] eq_refl). cbv zeta in F, Ef.
    destruct (fr_stopped _) eqn:Est in F; cbn [ends_once] in F; [|exfalso; apply (Hpos _ Hin); exact F].
    assert (Hns : ~ In u (map fst (g_natives g ++ g_sources g))).
    { intros H. destruct (sender_kind u fw) as [[_ X]|[_ X]]; [unfold senders_of; apply in_or_app; auto|exact (X H)|apply X; exact (in_map fst _ _ Hin')]. }
    split; [split; [intros H; contradiction|split; [intros _; rewrite Ef; exact Est|]]|split; [exact F|]].
    + intros H. exfalso. apply (sink_not_sender g Hd u fw H). unfold senders_of. apply in_or_app. auto.
    + intros [i j|i|] Ht' Hm' Hne; cbn in Ht'; subst; [exfalso; apply Hns; exact (source_known _ _ _ Hm')|congruence|contradiction].
Qed.
Lemma orderly tr s u d : nrun t tr s -> quiet proc st0 -> single_upstreams g -> upstream g u d -> halted g s d ->
  over g s u /\ Forall is_pulse (n_queue s d) /\ forall w, thread_of u w -> pend (n_out s w) d = [].
Proof.
  intros R Hq Hs Hu Hh. assert (I := inv_run _ _ _ W R). destruct (halted_polled tr s d R Hs Hh) as (b & Ep & Hb).
  assert (Ea := i_queue _ _ _ I d). rewrite Ep, <- app_assoc in Ea. cbn [app] in Ea.
  destruct (arrived_at d EShutdown b (n_queue s d) tr Ea) as (tr1 & w & tr2 & -> & Eb & Eq).
  replace (tr1 ++ LCopy w d EShutdown true :: tr2) with ((tr1 ++ [LCopy w d EShutdown true]) ++ tr2) in * by (rewrite <- app_assoc; reflexivity).
  set (tr1' := tr1 ++ [LCopy w d EShutdown true]) in *.
  destruct (run_split tr2 tr1' s R) as (s1 & R1 & N).
  assert (I1 := inv_run _ _ _ W R1). assert (L := i_link _ _ _ I1 w d).
  assert (Eat : attempts w d tr1' = attempts w d tr1 ++ [EShutdown]) by (unfold tr1'; rewrite attempts_app; f_equal; cbn; rewrite weqb_refl, seqb_refl'; reflexivity).
  assert (Hm : mem d (sends_of t w) = true).
  { destruct (mem d (sends_of t w)); [reflexivity|]. rewrite Eat in L. destruct (attempts w d tr1); discriminate L. }
  rewrite Hm, Eat in L.
  assert (Hin : In EShutdown (said t tr1' w)) by (rewrite <- L; apply in_or_app; left; apply in_or_app; right; left; reflexivity).
  destruct (sends_upstream w d Hm) as [->|(u' & Ht & Hu')]; [destruct (tim_said _ _ Hin) as [i X]; discriminate X|].
  assert (u' = u) by exact (Hs u' u d Hu' Hu). subst u'.
  destruct (speaking tr1' s1 u w d R1 Hq Hs Ht Hm Hin) as (Ho & (x & Ex & Hx) & Hothers).
  rewrite Ex in L. rewrite <- app_assoc in L. cbn [app] in L. destruct (marker_free_snoc _ _ _ L Hx) as [_ Epend].
  assert (Hall : forall w', thread_of u w' -> attempts w' d tr2 ++ pend (n_out s w') d = []).
  { intros w' Ht'. assert (L2 := i_link _ _ _ I w' d). rewrite attempts_app in L2. destruct (mem d (sends_of t w')) eqn:Em; [|apply app_eq_nil in L2 as [L2 L3]; apply app_eq_nil in L2 as [_ L2]; rewrite L2, L3; reflexivity].
    destruct (frozen_steps s1 tr2 s u w' d N tr1' Ho Ht' Em) as [_ Es]. rewrite Es in L2.
    assert (L1 := i_link _ _ _ I1 w' d). rewrite Em in L1.
    assert (Hp : pend (n_out s1 w') d = []).
    { destruct (weqb w' w) eqn:Ew; [apply weqb_eq in Ew; subst; exact Epend|]. rewrite Hothers; [reflexivity|exact Ht'|exact Em|]. intros ->. rewrite weqb_refl in Ew. discriminate. }
    rewrite Hp, app_nil_r in L1. rewrite <- L1, <- app_assoc in L2. rewrite <- (app_nil_r (attempts w' d tr1')) in L2 at 2. apply app_inv_head in L2. exact L2. }
  split; [exact (proj1 (frozen_steps s1 tr2 s u w d N tr1' Ho Ht Hm))|]. split.
  - rewrite <- Eq. apply Forall_forall. intros e He. apply in_split in He as (b1 & q1 & He). destruct (arrived_at d e b1 q1 tr2 He) as (t1 & w2 & t2 & Et & _).
    assert (Hat : In e (attempts w2 d tr2)).
    { rewrite Et. change (LCopy w2 d e true :: t2) with ([LCopy w2 d e true] ++ t2). rewrite !attempts_app. apply in_or_app. right. apply in_or_app. left. cbn. rewrite weqb_refl, seqb_refl'. left. reflexivity. }
    assert (Hsaid : mem d (sends_of t w2) = true /\ In e (said t (tr1' ++ tr2) w2)).
    { assert (L2 := i_link _ _ _ I w2 d). rewrite attempts_app in L2. destruct (mem d (sends_of t w2)).
      - split; [reflexivity|]. rewrite <- L2. apply in_or_app. left. apply in_or_app. right. exact Hat.
      - exfalso. apply app_eq_nil in L2 as [L2 _]. apply app_eq_nil in L2 as [_ L2]. rewrite L2 in Hat. contradiction. }
    destruct Hsaid as [Hm2 Hsaid]. destruct (sends_upstream w2 d Hm2) as [->|(u2 & Ht2 & Hu2)]; [exact (tim_said _ _ Hsaid)|].
    exfalso. assert (u2 = u) by exact (Hs u2 u d Hu2 Hu). subst u2. assert (X := Hall w2 Ht2). apply app_eq_nil in X as [X _]. rewrite X in Hat. contradiction.
  - intros w' Ht'. assert (X := Hall w' Ht'). apply app_eq_nil in X as [_ X]. exact X.
Qed.

(** ** The process can always come to its end *)
(** [goes tr s tr' s']: the execution [tr], which led to [s], can be prolonged by calm steps *)
Definition goes (tr : list label) (s : net) (tr' : list label) (s' : net) : Prop :=
  nrun t tr' s' /\ exists more, tr' = tr ++ more /\ Forall calm more /\ nsteps s more s'.
Lemma goes_refl tr s : nrun t tr s -> goes tr s tr s.
Proof. intros R. split; [exact R|]. exists []. split; [rewrite app_nil_r; reflexivity|]. split; constructor. Qed.
Lemma goes_step tr s l s' tr2 s2 : nrun t tr s -> nstep t s l s' -> calm l -> goes (tr ++ [l]) s' tr2 s2 -> goes tr s tr2 s2.
Proof.
  intros R St Hc (R2 & more & E & Hm & N). split; [exact R2|]. exists (l :: more). rewrite E, <- app_assoc. split; [reflexivity|]. split; [constructor; assumption|].
  clear -St N. induction N as [|m s1 x s2 _ IH St2].
  - change [l] with ([] ++ [l]). econstructor; [constructor|exact St].
  - change (l :: m ++ [x]) with ((l :: m) ++ [x]). econstructor; eauto.
Qed.
Lemma steps_app s a s1 b s2 : nsteps s a s1 -> nsteps s1 b s2 -> nsteps s (a ++ b) s2.
Proof. intros N M. induction M as [|b s2 x s3 _ IH St]; [rewrite app_nil_r; exact N|]. rewrite app_assoc. econstructor; eauto. Qed.
Lemma goes_trans tr s tr1 s1 tr2 s2 : goes tr s tr1 s1 -> goes tr1 s1 tr2 s2 -> goes tr s tr2 s2.
Proof.
  intros (_ & m1 & -> & C1 & N1) (R2 & m2 & -> & C2 & N2). split; [exact R2|]. exists (m1 ++ m2). rewrite app_assoc. split; [reflexivity|]. split; [apply Forall_app; auto|]. eapply steps_app; eauto.
Qed.
Lemma goes_run tr s tr' s' : goes tr s tr' s' -> nrun t tr' s'.
Proof. intros [R _]. exact R. Qed.
Lemma goes_over tr s tr' s' id : goes tr s tr' s' -> over g s id -> over g s' id.
Proof. intros (_ & m & _ & _ & N) Ho. induction N; [exact Ho|]. eapply over_step; eauto. Qed.
Lemma goes_markers tr s tr' s' : goes tr s tr' s' -> no_marker_dropped tr -> no_marker_dropped tr'.
Proof.
  intros (_ & m & -> & C & _) H u d Hin. apply in_app_or in Hin. destruct Hin as [Hin|Hin]; [exact (H u d Hin)|]. rewrite Forall_forall in C. exact (C _ Hin).
Qed.
Lemma goes_attempts tr s tr' s' u d : goes tr s tr' s' -> shutdowns (attempts u d tr) <= shutdowns (attempts u d tr').
Proof. intros (_ & m & -> & _). rewrite attempts_app, shutdowns_app. lia. Qed.

(** finishing a send *)
Lemma flush_out u : forall l tr s, nrun t tr s -> n_out s u = l -> exists tr' s', goes tr s tr' s' /\ n_out s' u = [] /\
  (forall v, v <> u -> n_out s' v = n_out s v) /\ n_filter s' = n_filter s /\ n_sink s' = n_sink s /\ n_done s' = n_done s /\
  (forall d, polled d tr' = polled d tr) /\ (forall d, exists q, n_queue s' d = n_queue s d ++ q).
Proof.
  induction l as [|[d e] l IH]; intros tr s R E.
  - exists tr, s. split; [apply goes_refl; exact R|]. split; [exact E|]. repeat (split; [reflexivity|]). intros d. exists []. symmetry. apply app_nil_r.
  - assert (St := step_copy proc fint t s u d e l true E). assert (R1 := run_step _ _ _ _ _ _ _ _ R St).
    destruct (IH _ _ R1) as (tr' & s' & G & H1 & H2 & H3 & H4 & H5 & H6 & H7); [cbn; unfold upd; rewrite weqb_refl; reflexivity|].
    exists tr', s'. split; [exact (goes_step _ _ _ _ _ _ R St Logic.I G)|]. split; [exact H1|]. split; [|split; [exact H3|split; [exact H4|split; [exact H5|split]]]].
    + intros v Hv. rewrite (H2 v Hv). cbn. unfold upd. rewrite weqb_ne by congruence. reflexivity.
    + intros x. rewrite H6, polled_snoc. cbn. apply app_nil_r.
    + intros x. destruct (H7 x) as (q & Eq). cbn [n_queue set_out set_queue] in Eq. unfold upd in Eq. destruct (seqb d x) eqn:Ex; [|eauto].
      apply seqb_eq in Ex. subst x. exists ([e] ++ q). rewrite Eq, <- app_assoc. reflexivity.
Qed.

(** a filter *)
Lemma filter_ends id sources sends : alookup seqb id (t_filters t) = Some (sources, sends) -> forall p rest tr s,
  nrun t tr s -> n_queue s id = p ++ rest -> Nat.max 1 (List.length sources) <= shutdowns (polled id tr ++ p) ->
  exists tr' s', goes tr s tr' s' /\ fn_stopped (n_filter s' id) = true /\ n_out s' (Fil id) = [].
Proof.
  intros El. induction p as [|e p IH]; intros rest tr s R Eq Hm.
  - rewrite app_nil_r in Hm. assert (Hst := filter_must_stop tr s id sources sends R El Hm).
    destruct (flush_out (Fil id) _ tr s R eq_refl) as (tr' & s' & G & H1 & _ & H3 & _). exists tr', s'. rewrite H3. auto.
  - destruct (flush_out (Fil id) _ tr s R eq_refl) as (tr1 & s1 & G1 & H1 & _ & H3 & _ & _ & H6 & H7).
    destruct (fn_stopped (n_filter s id)) eqn:Es; [exists tr1, s1; rewrite H3; auto|].
    destruct (H7 id) as (q & Eq1). rewrite Eq in Eq1. cbn [app] in Eq1.
    assert (Es1 : fn_stopped (n_filter s1 id) = false) by (rewrite H3; exact Es).
    assert (St := step_filter proc fint t s1 id sources sends e _ El H1 Es1 Eq1). assert (R1 := goes_run _ _ _ _ G1). assert (R2 := run_step _ _ _ _ _ _ _ _ R1 St).
    destruct (IH (rest ++ q) _ _ R2) as (tr' & s' & G & Hst & Ho).
    + cbn [n_queue set_out set_filter set_queue]. unfold upd. rewrite seqb_refl'. symmetry. apply app_assoc.
    + rewrite polled_snoc, H6. cbn [polled flat_map]. rewrite seqb_refl'. cbn [app]. rewrite <- app_assoc. exact Hm.
    + exists tr', s'. split; [|auto]. eapply goes_trans; [exact G1|]. exact (goes_step _ _ _ _ _ _ R1 St Logic.I G).
Qed.

(** a sink *)
Lemma sink_settles id sources e : alookup seqb id (t_sinks t) = Some sources -> forall m tr s,
  nrun t tr s -> sr_stopped (n_sink s id) = false -> sr_hand (n_sink s id) = Some e -> List.length sources - sr_shut (n_sink s id) <= m ->
  exists tr' s', goes tr s tr' s' /\ n_queue s' = n_queue s /\
    ((is_shutdown e = true /\ sr_stopped (n_sink s' id) = true) \/ (is_shutdown e = false /\ sr_stopped (n_sink s' id) = false /\ sr_hand (n_sink s' id) = None)).
Proof.
  intros El m. induction m as [|m IH]; intros tr s R Es Eh Hlen;
    assert (St := step_valve proc fint t s id sources true e El Es Eh); assert (R1 := run_step _ _ _ _ _ _ _ _ R St);
    set (s1 := set_sink id _ s) in *;
    assert (E1 : n_sink s1 id = sink_inner (List.length sources) (fint id) (n_sink s id) e true)
      by (unfold s1; cbn; unfold upd; rewrite seqb_refl', Es, Eh; reflexivity).
  all: assert (Hone : (is_shutdown e = true /\ sr_stopped (n_sink s1 id) = true) \/ (is_shutdown e = false /\ sr_stopped (n_sink s1 id) = false /\ sr_hand (n_sink s1 id) = None) ->
      exists tr' s', goes tr s tr' s' /\ n_queue s' = n_queue s /\
    ((is_shutdown e = true /\ sr_stopped (n_sink s' id) = true) \/ (is_shutdown e = false /\ sr_stopped (n_sink s' id) = false /\ sr_hand (n_sink s' id) = None)))
    by (intros H; eexists _, s1; split; [exact (goes_step _ _ _ _ _ _ R St Logic.I (goes_refl _ _ R1))|split; [reflexivity|exact H]]).
  all: destruct (is_shutdown e) eqn:Esh.
  all: try (apply Hone; right; split; [reflexivity|]; rewrite E1; destruct e; try discriminate Esh; cbn; try (split; reflexivity); destruct (_ <? _)%N; split; reflexivity).
  - apply Hone. left. split; [reflexivity|]. rewrite E1. destruct e; try discriminate Esh. cbn. destruct (Nat.leb_spec (List.length sources) (sr_shut (n_sink s id) + 1)); [reflexivity|lia].
  - destruct e; try discriminate Esh. cbn [sink_inner] in E1. destruct (Nat.leb_spec (List.length sources) (sr_shut (n_sink s id) + 1)).
    + apply Hone. left. rewrite E1. auto.
    + destruct (IH _ s1 R1) as (tr' & s' & G & Hq & H1).
      * rewrite E1. reflexivity.
      * rewrite E1. reflexivity.
      * rewrite E1. cbn. lia.
      * exists tr', s'. split; [exact (goes_step _ _ _ _ _ _ R St Logic.I G)|]. split; [exact Hq|exact H1].
Qed.
Lemma sink_ends id sources : alookup seqb id (t_sinks t) = Some sources -> forall p rest tr s,
  nrun t tr s -> n_queue s id = p ++ rest -> 1 <= shutdowns (polled id tr ++ p) ->
  exists tr' s', goes tr s tr' s' /\ sr_stopped (n_sink s' id) = true.
Proof.
  intros El. induction p as [|e p IH]; intros rest tr s R Eq Hm.
  - rewrite app_nil_r in Hm. destruct (sr_stopped (n_sink s id)) eqn:Es; [exists tr, s; split; [apply goes_refl; exact R|exact Es]|].
    destruct (sink_marker_seen tr s id sources R El) as (done & Ep & Hz & _). rewrite Es, Ep in *. rewrite shutdowns_app, Hz in Hm. unfold in_hand in *.
    destruct (sr_hand (n_sink s id)) as [e|] eqn:Eh; [|cbn in Hm; lia].
    destruct (sink_settles id sources e El _ tr s R Es Eh (le_n _)) as (tr' & s' & G & _ & [[_ H]|[H _]]); [eauto|]. unfold shutdowns in Hm. cbn in Hm. rewrite H in Hm. cbn in Hm. lia.
  - destruct (sr_stopped (n_sink s id)) eqn:Es; [exists tr, s; split; [apply goes_refl; exact R|exact Es]|].
    assert (Hpoll : forall tr s, nrun t tr s -> n_queue s id = (e :: p) ++ rest -> 1 <= shutdowns (polled id tr ++ e :: p) -> sr_stopped (n_sink s id) = false -> sr_hand (n_sink s id) = None ->
       exists tr' s', goes tr s tr' s' /\ sr_stopped (n_sink s' id) = true).
    { clear tr s R Eq Hm Es. intros tr s R Eq Hm Es Eh.
      assert (St := step_sink proc fint t s id sources e _ El Es Eh Eq). assert (R1 := run_step _ _ _ _ _ _ _ _ R St).
      destruct (IH rest _ _ R1) as (tr' & s' & G & H).
      - cbn. unfold upd. rewrite seqb_refl'. reflexivity.
      - rewrite polled_snoc. cbn [polled flat_map]. rewrite seqb_refl'. cbn [app]. rewrite <- app_assoc. exact Hm.
      - exists tr', s'. split; [exact (goes_step _ _ _ _ _ _ R St Logic.I G)|exact H]. }
    destruct (sr_hand (n_sink s id)) as [x|] eqn:Eh; [|eapply Hpoll; eauto].
    destruct (sink_settles id sources x El _ tr s R Es Eh (le_n _)) as (tr1 & s1 & G1 & Hq & [[_ H]|(_ & H1 & H2)]); [eauto|].
    destruct (Hpoll tr1 s1 (goes_run _ _ _ _ G1)) as (tr' & s' & G & H); [rewrite Hq; exact Eq| |exact H1|exact H2|].
    + destruct G1 as (_ & more & -> & _). unfold polled in *. rewrite flat_map_app, !shutdowns_app in *. lia.
    + exists tr', s'. split; [eapply goes_trans; eauto|exact H].
Qed.

(** a source *)
Lemma handlers_finite tr s : nrun t tr s -> forall id, exists K, forall k, K <= k -> n_out s (Src id k) = [].
Proof.
  induction 1 as [|tr s l s' _ IH St]; intros id; [exists 0; reflexivity|]. destruct (IH id) as (K & HK).
  destruct St as [i sends k e H1 H2 H3 H4|i sends H1 H2 H3|H1|u d e r ok H1|d sources sends e q H1 H2 H3 H4|d sources e q H1 H2 H3 H4|d sources o e H1 H2 H3].
  - exists (K + k + 1). intros j Hj. cbn. unfold upd. cbn. destruct (Nat.eqb_spec k j); [lia|]. rewrite andb_false_r. apply HK. lia.
  - exists (K + 1). intros j Hj. cbn. unfold upd. cbn. destruct j as [|j]; [lia|]. rewrite andb_false_r. apply HK. lia.
  - exists K. exact HK.
  - exists K. intros j Hj. replace (n_out (set_out u r (if ok then set_queue d (n_queue s d ++ [e]) s else s))) with (upd weqb u r (n_out s)) by (destruct ok; reflexivity).
    unfold upd. destruct (weqb u (Src id j)) eqn:E; [|apply HK; lia]. apply weqb_eq in E. subst u. rewrite HK in H1 by lia. discriminate.
  - exists K. exact HK.
  - exists K. exact HK.
  - exists K. exact HK.
Qed.
Lemma source_idles id : forall K tr s, nrun t tr s -> (forall k, K <= k -> n_out s (Src id k) = []) ->
  exists tr' s', goes tr s tr' s' /\ (forall k, n_out s' (Src id k) = []) /\ n_done s' = n_done s.
Proof.
  induction K as [|K IH]; intros tr s R HK; [exists tr, s; split; [apply goes_refl; exact R|split; [intros k; apply HK; lia|reflexivity]]|].
  destruct (flush_out (Src id K) _ tr s R eq_refl) as (tr1 & s1 & G1 & H1 & H2 & _ & _ & H5 & _).
  destruct (IH tr1 s1 (goes_run _ _ _ _ G1)) as (tr' & s' & G & Ha & Hb).
  - intros k Hk. destruct (Nat.eq_dec k K) as [->|Hne]; [exact H1|]. rewrite H2 by congruence. apply HK. lia.
  - exists tr', s'. split; [eapply goes_trans; eauto|]. split; [exact Ha|congruence].
Qed.
Lemma source_ends id tr s : In id (map fst (g_natives g ++ g_sources g)) -> nrun t tr s ->
  exists tr' s', goes tr s tr' s' /\ n_done s' id = true /\ n_out s' (Src id 0) = [].
Proof.
  intros Hin R. destruct (handlers_finite tr s R id) as (K & HK). destruct (source_idles id K tr s R HK) as (tr1 & s1 & G1 & Hout & Hdn).
  destruct (n_done s id) eqn:Ed; [exists tr1, s1; rewrite Hdn; auto|].
  destruct (source_found g t Hd Hw id Hin) as (sends & fw & El & _).
  assert (Ed1 : n_done s1 id = false) by (rewrite Hdn; exact Ed).
  assert (St := step_stop proc fint t s1 id sends El Ed1 Hout). assert (R1 := goes_run _ _ _ _ G1). assert (R2 := run_step _ _ _ _ _ _ _ _ R1 St).
  destruct (flush_out (Src id 0) _ _ _ R2 eq_refl) as (tr' & s' & G & H1 & _ & _ & _ & H5 & _).
  exists tr', s'. split; [eapply goes_trans; [exact G1|]; exact (goes_step _ _ _ _ _ _ R1 St Logic.I G)|]. split; [|exact H1]. rewrite H5. cbn. unfold upd. rewrite seqb_refl'. reflexivity.
Qed.

Definition announced (tr : list label) (s : @net Q S) (id : string) : Prop :=
  over g s id /\ forall v, upstream g id v -> 1 <= shutdowns (attempts (speaker id) v tr).
Lemma announced_goes tr s tr' s' id : goes tr s tr' s' -> announced tr s id -> announced tr' s' id.
Proof. intros G [Ho Ha]. split; [eapply goes_over; eauto|]. intros v Hv. etransitivity; [exact (Ha v Hv)|eapply goes_attempts; eauto]. Qed.
Lemma quiet_announced tr s id : nrun t tr s -> over g s id -> n_out s (speaker id) = [] -> announced tr s id.
Proof.
  intros R Ho He. split; [exact Ho|]. intros v Hv. assert (L := i_link _ _ _ (inv_run _ _ _ W R) (speaker id) v). rewrite He, (speaker_sends id v Hv) in L. cbn [pend flat_map] in L. rewrite app_nil_r in L.
  rewrite L. eapply over_said; eauto.
Qed.
Lemma all_announced (P : string -> Prop) : (forall id, P id -> forall tr s, nrun t tr s -> no_marker_dropped tr -> exists tr' s', goes tr s tr' s' /\ announced tr' s' id) ->
  forall l, Forall P l -> forall tr s, nrun t tr s -> no_marker_dropped tr -> exists tr' s', goes tr s tr' s' /\ Forall (announced tr' s') l.
Proof.
  intros H l Hl. induction Hl as [|id l Hid _ IH]; intros tr s R Hn; [exists tr, s; split; [apply goes_refl; exact R|constructor]|].
  destruct (IH tr s R Hn) as (tr1 & s1 & G1 & A1). destruct (H id Hid tr1 s1 (goes_run _ _ _ _ G1) (goes_markers _ _ _ _ G1 Hn)) as (tr' & s' & G & A).
  exists tr', s'. split; [eapply goes_trans; eauto|]. constructor; [exact A|]. eapply Forall_impl; [|exact A1]. intros x Hx. eapply announced_goes; eauto.
Qed.
Lemma speaker_filter id : In id (map fst (g_filters g)) -> speaker id = Fil id.
Proof. intros H. unfold speaker. apply mem_In in H. rewrite H. reflexivity. Qed.
Lemma fed_can_end id : fed g id -> forall tr s, nrun t tr s -> no_marker_dropped tr -> exists tr' s', goes tr s tr' s' /\ announced tr' s' id.
Proof.
  induction 1 as [id Hs|id u Hk Hu _ IHu|id fw u Hf Hu _ IHu _ IHall]; intros tr s R Hn.
  - assert (Hnf : ~ In id (map fst (g_filters g))).
    { intros H. apply in_map_iff in H as ([i fw] & <- & H). destruct (sender_kind i fw) as [[_ A]|[_ A]]; [unfold senders_of; apply in_or_app; auto|exact (A Hs)|apply A; exact (in_map fst _ _ H)]. }
    destruct (source_ends id tr s Hs R) as (tr' & s' & G & H1 & H2). exists tr', s'. split; [exact G|]. apply quiet_announced; [exact (goes_run _ _ _ _ G)| |].
    + split; [intros _; exact H1|]. split; intros H; [contradiction|]. exfalso. apply in_map_iff in Hs as ([i fw] & <- & Hs). apply (sink_not_sender g Hd i fw H). unfold senders_of. apply in_or_app. auto.
    + unfold speaker. destruct (mem id (map fst (g_filters g))) eqn:E; [apply mem_In in E; contradiction|exact H2].
  - destruct (sink_found g t Hd Hw id Hk) as (sources & El). destruct (IHu tr s R Hn) as (tr1 & s1 & G1 & Ho & Ha). assert (R1 := goes_run _ _ _ _ G1).
    destruct (sink_ends id sources El (n_queue s1 id) [] tr1 s1 R1) as (tr' & s' & G & Hst).
    + symmetry. apply app_nil_r.
    + rewrite <- (i_queue _ _ _ (inv_run _ _ _ W R1) id).
      assert (T := arrived_total id tr1 [speaker u] ltac:(constructor; [intros []|constructor])). cbn [total fold_right] in T.
      rewrite arrived_attempts in T by exact (goes_markers _ _ _ _ G1 Hn). specialize (Ha id Hu). lia.
    + exists tr', s'. split; [eapply goes_trans; eauto|]. split.
      * split; [|split; [|intros _; exact Hst]]; intros H; exfalso; apply in_map_iff in H as ([i fw] & <- & H); apply (sink_not_sender g Hd i fw Hk); unfold senders_of; apply in_or_app; auto.
      * intros v (fw & Hin & _). destruct (sink_not_sender g Hd id fw Hk Hin).
  - assert (Hfi : In id (map fst (g_filters g))) by exact (in_map fst _ _ Hf).
    destruct (filter_found g t Hd Hw id Hfi) as (sources & sends & El).
    destruct (filter_lookup g t Hd Hw _ _ _ El) as (fw' & Hin & _ & [Hnd Hl]).
    assert (fw' = fw) by (apply (senders_unique g Hd id); unfold senders_of; apply in_or_app; auto). subst fw'.
    destruct (IHu tr s R Hn) as (tr1 & s1 & G1 & A1).
    destruct (all_announced (fun x => upstream g x id /\ ~ In x fw) (fun x Hx => IHall x (proj1 Hx) (proj2 Hx)) sources) with (tr := tr1) (s := s1) as (tr2 & s2 & G2 & A2);
      [apply Forall_forall; intros x Hx; apply Hl; exact Hx|exact (goes_run _ _ _ _ G1)|exact (goes_markers _ _ _ _ G1 Hn)|].
    assert (G12 := goes_trans _ _ _ _ _ _ G1 G2). assert (R2 := goes_run _ _ _ _ G2). assert (Hn2 := goes_markers _ _ _ _ G12 Hn).
    destruct (filter_ends id sources sends El (n_queue s2 id) [] tr2 s2 R2) as (tr' & s' & G & Hst & Hout).
    + symmetry. apply app_nil_r.
    + rewrite <- (i_queue _ _ _ (inv_run _ _ _ W R2) id). apply Nat.max_lub.
      * assert (T := arrived_total id tr2 [speaker u] ltac:(constructor; [intros []|constructor])). cbn [total fold_right] in T. rewrite arrived_attempts in T by exact Hn2.
        destruct (announced_goes _ _ _ _ u G2 A1) as [_ Ha]. specialize (Ha id Hu). lia.
      * etransitivity; [|apply (arrived_total id tr2 (map speaker sources)); apply NoDup_speakers; exact Hnd].
        rewrite <- (map_length speaker sources). apply total_ge. intros w Hin'. apply in_map_iff in Hin' as (x & <- & Hx).
        rewrite Forall_forall in A2. destruct (A2 x Hx) as [_ Ha]. rewrite arrived_attempts by exact Hn2. apply Ha. apply Hl in Hx. tauto.
    + exists tr', s'. split; [eapply goes_trans; eauto|]. apply quiet_announced; [exact (goes_run _ _ _ _ G)| |rewrite speaker_filter by exact Hfi; exact Hout].
      split; [|split; [intros _; exact Hst|]]; intros H; exfalso.
      * destruct (sender_kind id fw) as [[_ A]|[_ A]]; [unfold senders_of; apply in_or_app; auto|exact (A H)|exact (A Hfi)].
      * apply (sink_not_sender g Hd id fw H). unfold senders_of. apply in_or_app. auto.
Qed.
End Stop.
End Network.
