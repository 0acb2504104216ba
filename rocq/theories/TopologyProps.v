(** * Properties C51, C73: wiring of the configured graph. *)
From Verif Require Import Base BaseFacts TopologyModel TopologySpec TopologyProofs.
Open Scope string_scope. Open Scope list_scope. Open Scope nat_scope.

(** ** C51 *)
(** every source and filter gets one sender per distinct forward, and one thread *)
Theorem C51_one_sender_per_forward : forall g t, distinct_ids g -> wire g = Going t ->
  Forall2 (fun c r => fst r = fst c /\ lists (snd r) (fun v => In v (snd c))) (g_natives g ++ g_sources g) (t_sources t) /\
  Forall2 (fun c r => fst r = fst c /\ lists (snd (snd r)) (fun v => In v (snd c))) (g_filters g) (t_filters t).
Proof.
  intros g t Hd Hw. destruct (wire_spec g Hd) as [(t' & w & E & Et & R & _)|[[E _]|[[E _]|[E _]]]]; rewrite E in Hw; try discriminate.
  injection Hw as <-. subst t'. cbn. split; [exact (r_sources _ _ _ _ _ R)|]. eapply Forall2_weaken; [|exact (r_filters _ _ _ _ _ R)]. cbn. intros a b (H1 & _ & H3). auto.
Qed.
(** the matrix counts the distinct neighbours of a node, whatever edges were added and however often *)
Definition adds {M} (calls : list (string * list string * option M)) : adjacency M :=
  fold_left (fun a c => add_edges (fst (fst c)) (snd (fst c)) (snd c) a) calls [].
Definition joined {M} (calls : list (string * list string * option M)) (u v : string) : Prop :=
  exists f ts md, In (f, ts, md) calls /\ ((u = f /\ In v ts) \/ (v = f /\ In u ts)).
Lemma add_asym_lists {M} f t (md : option M) (a : adjacency M) P : (forall id, match alookup seqb id a with Some m => lists (map fst m) (P id) | None => forall v, ~ P id v end) ->
  forall id, match alookup seqb id (add_asymmetric_edge f t md a) with Some m => lists (map fst m) (fun v => P id v \/ (id = f /\ v = t)) | None => forall v, ~ (P id v \/ (id = f /\ v = t)) end.
Proof.
  intros H id. unfold add_asymmetric_edge. cbv zeta. destruct (string_dec id f) as [->|N].
  - rewrite (alookup_ainsert_eq seqb seqb_eq). specialize (H f). destruct (alookup seqb f a) as [m|].
    + destruct H as [H1 H2]. split; [apply (ainsert_NoDup seqb seqb_eq); exact H1|]. intros x. rewrite (ainsert_keys seqb seqb_eq), H2. tauto.
    + split; [cbn; constructor; [intros []|constructor]|]. intros x. cbn. specialize (H x). split; [intros [->|[]]; auto|intros [Hx|[_ ->]]; [tauto|auto]].
  - rewrite (alookup_ainsert_ne seqb seqb_eq) by congruence. specialize (H id). destruct (alookup seqb id a) as [m|].
    + destruct H as [H1 H2]. split; [exact H1|]. intros x. rewrite H2. tauto.
    + intros v [Hv|[Hv _]]; [exact (H v Hv)|contradiction].
Qed.
Theorem C51_neighbours_counted : forall (M : Type) (calls : list (string * list string * option M)) (id : string),
  exists l, lists l (joined calls id) /\ num_edges id (adds calls) = List.length l /\ (contains_node id (adds calls) = true <-> l <> []).
Proof.
  intros M calls id.
  assert (G : forall id, match alookup seqb id (adds calls) with Some m => lists (map fst m) (joined calls id) /\ m <> [] | None => forall v, ~ joined calls id v end).
  { clear id. unfold adds. induction calls as [|[[f ts] md] calls IH] using rev_ind; intros id; [intros v (f & ts & md & [] & _)|].
    rewrite fold_left_app. cbn [fold_left fst snd]. match goal with |- context [fold_left ?h calls []] => set (a := fold_left h calls []) in * end. clearbody a.
    assert (G : forall ts (a : adjacency M) P, (forall id, match alookup seqb id a with Some m => lists (map fst m) (P id) /\ m <> [] | None => forall v, ~ P id v end) ->
      forall id, match alookup seqb id (add_edges f ts md a) with Some m => lists (map fst m) (fun v => P id v \/ (id = f /\ In v ts) \/ (v = f /\ In id ts)) /\ m <> [] | None => forall v, ~ (P id v \/ (id = f /\ In v ts) \/ (v = f /\ In id ts)) end).
    { clear. induction ts as [|t ts IH]; intros a P H id; cbn [add_edges].
      - specialize (H id). destruct (alookup seqb id a); [destruct H as [H Hm]; split; [|exact Hm]; eapply lists_ext; [|exact H]; cbn; tauto|]. intros v [Hv|[[_ []]|[_ []]]]. exact (H v Hv).
      - assert (K : forall x y (b : adjacency M) P, (forall id, match alookup seqb id b with Some m => lists (map fst m) (P id) /\ m <> [] | None => forall v, ~ P id v end) ->
          forall id, match alookup seqb id (add_asymmetric_edge x y md b) with Some m => lists (map fst m) (fun v => P id v \/ (id = x /\ v = y)) /\ m <> [] | None => forall v, ~ (P id v \/ (id = x /\ v = y)) end).
        { clear. intros x y b P H id. assert (H' : forall id, match alookup seqb id b with Some m => lists (map fst m) (P id) | None => forall v, ~ P id v end) by (intros i; specialize (H i); destruct (alookup seqb i b); tauto).
          pose proof (add_asym_lists x y md b P H' id) as L. destruct (alookup seqb id (add_asymmetric_edge x y md b)) as [m|] eqn:E; [|exact L]. split; [exact L|]. intros ->. destruct L as [_ L]. specialize (H id).
          unfold add_asymmetric_edge in E. destruct (string_dec id x) as [->|N]; [rewrite (alookup_ainsert_eq seqb seqb_eq) in E; injection E as E; exact (ainsert_not_nil _ _ _ E)|].
          rewrite (alookup_ainsert_ne seqb seqb_eq) in E by congruence. rewrite E in H. destruct H as [_ H]. exact (H eq_refl). }
        specialize (IH _ _ (K t f _ _ (K f t a P H)) id). destruct (alookup seqb id (add_edges f ts md _)).
        + destruct IH as [IH Hm]. split; [|exact Hm]. eapply lists_ext; [|exact IH]. cbn. intros x. intuition (subst; auto).
        + intros v Hv. apply (IH v). cbn in Hv. intuition (subst; auto). }
    specialize (G ts a _ IH id). assert (J : forall v, joined (calls ++ [(f, ts, md)]) id v <-> (joined calls id v \/ (id = f /\ In v ts) \/ (v = f /\ In id ts))).
    { intros v. split.
      - intros (f' & ts' & md' & Hin & Hc). apply in_app_or in Hin as [Hin|[Hin|[]]]; [left; exists f', ts', md'; auto|injection Hin as <- <- <-; tauto].
      - intros [(f' & ts' & md' & Hin & Hc)|Hc]; [exists f', ts', md'; split; [apply in_or_app; auto|exact Hc]|exists f, ts, md; split; [apply in_or_app; right; left; reflexivity|exact Hc]]. }
    destruct (alookup seqb id (add_edges f ts md a)); [destruct G as [G Hm]; split; [|exact Hm]; eapply lists_ext; [|exact G]; cbn; intros x; symmetry; apply J|]. intros v Hv. apply (G v), J, Hv. }
  specialize (G id). unfold num_edges, contains_node, amem. destruct (alookup seqb id (adds calls)) as [m|].
  - destruct G as [G Hm]. exists (map fst m). split; [exact G|]. rewrite map_length. split; [reflexivity|]. split; [intros _; destruct m; [congruence|discriminate]|reflexivity].
  - exists []. split; [split; [constructor|intros x; split; [intros []|apply G]]|]. split; [reflexivity|]. split; [discriminate|congruence].
Qed.
Example C51_neighbours_ex : let a := adds [("s", ["x"; "y"; "x"], @None nat); ("x", ["s"; "z"], Some 1)] in
  (num_edges "s" a, num_edges "x" a, num_edges "z" a, num_edges "q" a, contains_node "q" a) = (2, 2, 1, 0, false).
Proof. reflexivity. Qed.
(** every sink expects a shutdown from each of its distinct upstreams *)
Theorem C51_sinks_expect_upstreams : forall g t, distinct_ids g -> wire g = Going t ->
  Forall2 (fun id r => fst r = id /\ lists (snd r) (fun u => upstream g u id)) (g_sinks g) (t_sinks t).
Proof.
  intros g t Hd Hw. destruct (wire_spec g Hd) as [(t' & w & E & Et & R & _)|[[E _]|[[E _]|[E _]]]]; rewrite E in Hw; try discriminate.
  injection Hw as <-. subst t'. destruct R. assumption.
Qed.
(** The claim for filters is false: two filters that forward to each other do not
    count each other. *)
Definition xcycle : config :=
  mkConfig ["sinks.console"] [("filters.a", ["filters.b"; "sinks.console"]); ("filters.b", ["filters.a"])] [] [("sources.internal", ["filters.a"])].
Theorem C51_filters_expect_upstreams_refuted : exists g t id sources sends u,
  distinct_ids g /\ wire g = Going t /\ In (id, (sources, sends)) (t_filters t) /\ upstream g u id /\ ~ In u sources.
Proof.
  exists xcycle, (mkStarted [("sinks.console", ["filters.a"])] [("filters.a", (["sources.internal"], ["filters.b"; "sinks.console"])); ("filters.b", ([], ["filters.a"]))]
    [("sources.internal", ["filters.a"])] ["filters.a"]), "filters.b", [], ["filters.a"], "filters.a".
  split; [unfold distinct_ids; cbn; repeat (constructor; [cbn; intuition discriminate|]); constructor|]. split; [reflexivity|].
  split; [cbn; tauto|]. split; [exists ["filters.b"; "sinks.console"]; cbn; tauto|intros []].
Qed.
(** What holds: a filter counts the upstreams it does not itself forward to.
    Missing: the upstreams it forwards to. *)
Theorem C51_filters_expect_upstreams_partial : forall g t, distinct_ids g -> wire g = Going t ->
  Forall2 (fun c r => fst r = fst c /\ lists (fst (snd r)) (fun u => upstream g u (fst c) /\ ~ In u (snd c))) (g_filters g) (t_filters t).
Proof.
  intros g t Hd Hw. destruct (wire_spec g Hd) as [(t' & w & E & Et & R & _)|[[E _]|[[E _]|[E _]]]]; rewrite E in Hw; try discriminate.
  injection Hw as <-. subst t'. cbn. eapply Forall2_weaken; [|exact (r_filters _ _ _ _ _ R)]. cbn. intros a b (H1 & H2 & _). auto.
Qed.
(** the timer feeds each node some source forwards to, once *)
Theorem C51_timer : forall g t, distinct_ids g -> wire g = Going t ->
  lists (t_timer t) (fun v => exists id fw, In (id, fw) (g_natives g ++ g_sources g) /\ In v fw).
Proof.
  intros g t Hd Hw. destruct (wire_spec g Hd) as [(t' & w & E & Et & R & _)|[[E _]|[[E _]|[E _]]]]; rewrite E in Hw; try discriminate.
  injection Hw as <-. subst t'. destruct R. assumption.
Qed.
(** Ids need not be distinct: a file source is named after its path
    (src/config.rs:828).  Two tables with the same path start two sources, and the
    handle of the first is dropped: nothing will shut it down. *)
Theorem C51_same_path_refuted : exists g t, wire g = Going t /\ List.length (g_sources g) = 3 /\ List.length (t_sources t) = 2.
Proof.
  exists (mkConfig ["sinks.null"] [] [] [("sources.internal", []); ("sources.files./var/log/a", ["sinks.null"]); ("sources.files./var/log/a", ["sinks.null"])]).
  exists (mkStarted [("sinks.null", ["sources.files./var/log/a"])] [] [("sources.internal", []); ("sources.files./var/log/a", ["sinks.null"])] ["sinks.null"]).
  split; [reflexivity|]. split; reflexivity.
Qed.
Example C51_ex :
  let g := mkConfig ["sinks.console"; "sinks.null"] [("filters.a", ["filters.b"; "sinks.null"; "filters.b"]); ("filters.b", ["sinks.null"; "sinks.console"])]
    [("sources.native.n", ["filters.b"])] [("sources.internal", []); ("sources.statsd.s", ["filters.a"; "sinks.null"])] in
  distinct_ids g /\
  wire g = Going (mkStarted [("sinks.console", ["filters.b"]); ("sinks.null", ["filters.a"; "filters.b"; "sources.statsd.s"])]
    [("filters.a", (["sources.statsd.s"], ["filters.b"; "sinks.null"])); ("filters.b", (["filters.a"; "sources.native.n"], ["sinks.null"; "sinks.console"]))]
    [("sources.native.n", ["filters.b"]); ("sources.internal", []); ("sources.statsd.s", ["filters.a"; "sinks.null"])] ["filters.b"; "filters.a"; "sinks.null"]).
Proof.
  cbv zeta. split; [unfold distinct_ids; cbn; repeat (constructor; [cbn; intuition discriminate|]); constructor|reflexivity].
Qed.
Print Assumptions C51_one_sender_per_forward.
Print Assumptions C51_sinks_expect_upstreams.
Print Assumptions C51_filters_expect_upstreams_refuted.
Print Assumptions C51_filters_expect_upstreams_partial.
Print Assumptions C51_timer.
Print Assumptions C51_neighbours_counted.
Print Assumptions C51_same_path_refuted.

(** ** C73: which configurations start *)
Definition fulfillable (g : config) : Prop := forall u v, upstream g u v -> receives g v.
(** A fulfillable configuration need not start: a filter that has no forwards and
    that nothing forwards to makes main panic. *)
Theorem C73_fulfillable_starts_refuted : exists g, distinct_ids g /\ fulfillable g /\ wire g = Panicked.
Proof.
  exists (mkConfig ["sinks.null"] [("filters.a", [])] [] [("sources.internal", ["sinks.null"])]). split; [|split; [|reflexivity]].
  - unfold distinct_ids; cbn; repeat (constructor; [cbn; intuition discriminate|]); constructor.
  - intros u v (fw & [[= <- <-]|[[= <- <-]|[]]] & Hv); [contradiction|]. destruct Hv as [<-|[]]. left. left. reflexivity.
Qed.
(** Exactly the others start. *)
Theorem C73_starts : forall g, distinct_ids g ->
  ((exists t, wire g = Going t) <-> fulfillable g /\ forall id, In (id, []) (g_filters g) -> exists u, upstream g u id).
Proof.
  intros g Hd. destruct (wire_spec g Hd) as [(t & w & E & _ & _ & F1 & F2)|[(E & c & x & H1 & H2 & H3)|[(E & (c & H1 & H2) & _)|(E & (c & H1 & H2 & H3) & H4)]]]; rewrite E.
  - split; [intros _|intros _; eauto]. split.
    + intros u v (fw & Hin & Hv). rewrite Forall_forall in F1. apply (F1 _ Hin), Hv.
    + intros id Hin. rewrite Forall_forall in F2. destruct (F2 _ Hin) as [F|F]; [cbn in F; congruence|exact F].
  - split; [intros [t Ht]; discriminate|]. intros [F _]. exfalso. apply H3. left. apply (F (fst c)). exists (snd c). split; [|assumption].
    unfold senders_of. rewrite !in_app_iff. apply in_app_or in H1. destruct c. cbn. tauto.
  - split; [intros [t Ht]; discriminate|]. intros [F _]. exfalso. apply H2. intros x Hx. apply (F (fst c)). exists (snd c). split; [destruct c; exact H1|assumption].
  - split; [intros [t Ht]; discriminate|]. intros [_ F]. exfalso. apply H3, F. destruct c as [id fw]. cbn in *. subst fw. exact H1.
Qed.
(** An unfulfillable configuration may end with the status of success: one whose
    native source, which main does not validate, forwards to nothing. *)
Theorem C73_failure_status_refuted : exists g, distinct_ids g /\ ~ fulfillable g /\ wire g = Exit 0.
Proof.
  exists (mkConfig ["sinks.null"] [] [("sources.native.n", ["sinks.nul"])] [("sources.internal", ["sinks.null"])]). split; [|split; [|reflexivity]].
  - unfold distinct_ids; cbn; repeat (constructor; [cbn; intuition discriminate|]); constructor.
  - intros F. destruct (F "sources.native.n" "sinks.nul") as [[H|[]]|[]]; [|discriminate]. exists ["sinks.nul"]. cbn. tauto.
Qed.
(** It ends with status 1 exactly when a filter or a source other than a native one
    forwards to an id that is neither sink nor filter nor (non-native) source. *)
Theorem C73_failure_status_partial : forall g, distinct_ids g ->
  (wire g = Exit 1 <-> exists c x, In c (g_filters g ++ g_sources g) /\ In x (snd c) /\ ~ receives g x /\ ~ In x (map fst (g_sources g))) /\
  (forall code, wire g = Exit code -> ~ fulfillable g /\ (code = 0 \/ code = 1)).
Proof.
  intros g Hd. destruct (wire_spec g Hd) as [(t & w & E & _ & _ & F1 & F2)|[(E & c & x & H1 & H2 & H3)|[(E & (c & H1 & H2) & H3)|(E & (c & H1 & H2 & H3) & H4)]]]; rewrite E.
  - split; [|discriminate]. split; [discriminate|]. intros (c & x & H1 & H2 & H3 & _). exfalso. apply H3. rewrite Forall_forall in F1. apply (F1 c); [|assumption].
    unfold senders_of. rewrite !in_app_iff. apply in_app_or in H1. tauto.
  - assert (N : ~ receives g x /\ ~ In x (map fst (g_sources g))) by (unfold entry in H3; tauto).
    split; [split; [intros _; exists c, x; tauto|reflexivity]|]. intros code [= <-]. split; [|tauto]. intros F. apply (proj1 N), (F (fst c)). exists (snd c). split; [|assumption].
    unfold senders_of. rewrite !in_app_iff. apply in_app_or in H1. destruct c. cbn. tauto.
  - split.
    + split; [discriminate|]. intros (c' & x & K1 & K2 & K3 & K4). exfalso. destruct (H3 c' x K1 K2); tauto.
    + intros code [= <-]. split; [|tauto]. intros F. apply H2. intros x Hx. apply (F (fst c)). exists (snd c). split; [destruct c; exact H1|assumption].
  - split; [|discriminate]. split; [discriminate|]. intros (c' & x & K1 & K2 & K3 & K4). exfalso. destruct (H4 c' x K1 K2); tauto.
Qed.
Example C73_ex : wire (mkConfig ["sinks.null"] [("filters.a", ["sinks.nul"])] [] [("sources.internal", ["sinks.null"])]) = Exit 1 /\
  wire (mkConfig ["sinks.null"] [("filters.a", ["sources.internal"])] [] [("sources.internal", ["sinks.null"])]) = Exit 0.
Proof. split; reflexivity. Qed.
Print Assumptions C73_fulfillable_starts_refuted.
Print Assumptions C73_starts.
Print Assumptions C73_failure_status_refuted.
Print Assumptions C73_failure_status_partial.
