(** * Proofs about the prometheus sink. *)
From Verif Require Import Base BaseFacts TelemetryModel TelemetryProofs BucketsSpec FiltersModel FiltersProofs WavefrontModel PrometheusModel PrometheusSpec.
Open Scope string_scope. Open Scope list_scope. Open Scope nat_scope.

Ltac conj := repeat match goal with |- _ /\ _ => split end.
Section Proofs.
Context `{Q : QLib}.

Lemma meth_eqb_eq a b : meth_eqb a b = true <-> a = b.
Proof. destruct a, b; cbn; split; congruence. Qed.
Lemma kind_add a b : t_kind (t_add a b) = t_kind b.
Proof. exact (value_add_kind (t_value a) (t_value b)). Qed.

(** ** the window *)
Lemma win_split ts samples : StronglySorted earlier samples ->
  (exists l1 y l3, samples = l1 ++ y :: l3 /\ Forall (fun p => (t_timestamp p < ts)%Z) l1 /\ t_timestamp y = ts /\ Forall (fun p => (ts < t_timestamp p)%Z) l3) \/
  (exists l1 l3, samples = l1 ++ l3 /\ Forall (fun p => (t_timestamp p < ts)%Z) l1 /\ Forall (fun p => (ts < t_timestamp p)%Z) l3).
Proof.
  induction 1 as [|x l Hs IH Hx]; [right; exists [], []; auto|].
  destruct (Z.lt_trichotomy (t_timestamp x) ts) as [H|[H|H]].
  - destruct IH as [(l1 & y & l3 & -> & H1 & H2 & H3)|(l1 & l3 & -> & H1 & H2)].
    + left. exists (x :: l1), y, l3. auto.
    + right. exists (x :: l1), l3. auto.
  - left. exists [], x, l. repeat split; auto. eapply Forall_impl; [|exact Hx]. unfold earlier. intros; lia.
  - right. exists [], (x :: l). repeat split; auto. constructor; [assumption|]. eapply Forall_impl; [|exact Hx]. unfold earlier. intros; lia.
Qed.
Lemma cmp_lt ts l : Forall (fun p => (t_timestamp p < ts)%Z) l -> Forall (fun p => ts_cmp ts p = Lt) l.
Proof. apply Forall_impl. intros p. unfold ts_cmp. apply Z.compare_lt_iff. Qed.
Lemma cmp_gt ts l : Forall (fun p => (ts < t_timestamp p)%Z) l -> Forall (fun p => ts_cmp ts p = Gt) l.
Proof. apply Forall_impl. intros p. unfold ts_cmp. apply Z.compare_gt_iff. Qed.
Lemma window_add_shape cap samples t : StronglySorted earlier samples ->
  (exists l1 y l3, samples = l1 ++ y :: l3 /\ Forall (fun p => (t_timestamp p < t_timestamp t)%Z) l1 /\ t_timestamp y = t_timestamp t /\
     Forall (fun p => (t_timestamp t < t_timestamp p)%Z) l3 /\ window_add cap samples t = l1 ++ t_add y t :: l3) \/
  (exists l1 l3, samples = l1 ++ l3 /\ Forall (fun p => (t_timestamp p < t_timestamp t)%Z) l1 /\ Forall (fun p => (t_timestamp t < t_timestamp p)%Z) l3 /\
     window_add cap samples t = skipn (S (List.length samples) - N.to_nat cap) (l1 ++ t :: l3)).
Proof.
  intros Hs. destruct (win_split (t_timestamp t) samples Hs) as [(l1 & y & l3 & -> & H1 & H2 & H3)|(l1 & l3 & -> & H1 & H2)].
  - left. exists l1, y, l3. repeat split; auto. unfold window_add. rewrite bsearch_one; [|apply cmp_lt; assumption| |apply cmp_gt; assumption].
    + apply (update_at_app l1 l3 y (fun p => t_add p t)).
    + unfold ts_cmp. rewrite H2. apply Z.compare_refl.
  - right. exists l1, l3. repeat split; auto. unfold window_add. rewrite bsearch_none; [|apply cmp_lt; assumption|apply cmp_gt; assumption].
    rewrite insert_at_app. replace (List.length (l1 ++ t :: l3)) with (S (List.length (l1 ++ l3))) by (rewrite !app_length; cbn; lia).
    destruct (N.ltb_spec cap (N.of_nat (S (List.length (l1 ++ l3))))); [reflexivity|].
    replace (S (List.length (l1 ++ l3)) - N.to_nat cap) with 0 by lia. reflexivity.
Qed.
Lemma sorted_put l1 l3 t : StronglySorted earlier (l1 ++ l3) -> Forall (fun p => (t_timestamp p < t_timestamp t)%Z) l1 -> Forall (fun p => (t_timestamp t < t_timestamp p)%Z) l3 ->
  StronglySorted earlier (l1 ++ t :: l3).
Proof.
  intros Hs H1 H3. apply sorted_app_inv in Hs as (S1 & S3 & S13). rewrite Forall_forall in H1, H3. apply sorted_app; [assumption| |].
  - constructor; [assumption|]. apply Forall_forall. intros p Hp. apply H3; assumption.
  - intros p q Hp [<-|Hq]; [apply H1; assumption|apply S13; assumption].
Qed.
Lemma sorted_skipn {A} (R : A -> A -> Prop) n : forall l, StronglySorted R l -> StronglySorted R (skipn n l).
Proof. induction n as [|n IH]; intros l H; [exact H|]. destruct H; [constructor|]. apply IH. assumption. Qed.
Lemma window_add_inv cap samples t : StronglySorted earlier samples -> (N.of_nat (List.length samples) <= cap)%N ->
  StronglySorted earlier (window_add cap samples t) /\ (N.of_nat (List.length (window_add cap samples t)) <= cap)%N.
Proof.
  intros Hs Hc. destruct (window_add_shape cap samples t Hs) as [(l1 & y & l3 & -> & H1 & H2 & H3 & ->)|(l1 & l3 & -> & H1 & H3 & ->)].
  - split.
    + apply (sorted_put l1 l3 (t_add y t)).
      * apply sorted_app_inv in Hs as (S1 & S3 & S13). inversion S3; subst. apply sorted_app; auto. intros p q Hp Hq. apply S13; [assumption|right; assumption].
      * cbn. rewrite H2. assumption.
      * cbn. rewrite H2. assumption.
    + rewrite app_length in *. cbn in *. exact Hc.
  - split; [apply sorted_skipn; apply sorted_put; assumption|]. rewrite skipn_length. rewrite !app_length in *. cbn [List.length] in *. lia.
Qed.
Lemma merged_snoc' l t : merged (l ++ [t]) = Some (match merged l with Some p => t_add p t | None => t end).
Proof. destruct l as [|a l]; [reflexivity|]. cbn. rewrite fold_left_app. reflexivity. Qed.
Lemma window_add_of cap h samples t : (1 <= cap)%N -> window_of cap h samples -> window_of cap (h ++ [t]) (window_add cap samples t).
Proof.
  intros Hcap [Hs Hc Hm Hv]. destruct (window_add_inv cap samples t Hs Hc) as [Hs' Hc'].
  assert (Fo : forall p, t_timestamp p <> t_timestamp t -> filter (at_second (t_timestamp p)) (h ++ [t]) = filter (at_second (t_timestamp p)) h).
  { intros p Hp. rewrite filter_app. cbn. unfold at_second at 2. destruct (Z.eqb_spec (t_timestamp t) (t_timestamp p)); [congruence|]. apply app_nil_r. }
  destruct (window_add_shape cap samples t Hs) as [(l1 & y & l3 & E & H1 & H2 & H3 & Ew)|(l1 & l3 & E & H1 & H3 & Ew)].
  - rewrite Ew in *. subst samples. rewrite Forall_forall in H1, H3. constructor; auto.
    + intros p Hp. apply in_app_or in Hp as [Hp|[<-|Hp]].
      * rewrite Fo by (specialize (H1 p Hp); lia). apply Hm. apply in_or_app; auto.
      * cbn [t_timestamp t_add]. rewrite filter_app. cbn. unfold at_second at 2. rewrite H2, Z.eqb_refl, merged_snoc'.
        rewrite <- H2, Hm by (apply in_or_app; right; left; reflexivity). reflexivity.
      * rewrite Fo by (specialize (H3 p Hp); lia). apply Hm. apply in_or_app; right; right; assumption.
    + intros t' Ht'. apply in_app_or in Ht' as [Ht'|[<-|[]]].
      * destruct (Hv t' Ht') as [(p & Hp & Ep)|[Hl Hf]].
        -- left. apply in_app_or in Hp as [Hp|[<-|Hp]]; [exists p; split; [apply in_or_app; auto|assumption]| |exists p; split; [apply in_or_app; right; right; assumption|assumption]].
           exists (t_add y t). split; [apply in_or_app; right; left; reflexivity|exact Ep].
        -- right. split; [rewrite app_length in *; exact Hl|]. apply Forall_app in Hf as [F1 F2]. inversion F2; subst. apply Forall_app. split; [assumption|]. constructor; assumption.
      * left. exists (t_add y t). split; [apply in_or_app; right; left; reflexivity|exact H2].
  - subst samples. pose proof H1 as H1'. pose proof H3 as H3'. rewrite Forall_forall in H1, H3.
    destruct (N.ltb_spec (N.of_nat (List.length (l1 ++ l3))) cap) as [Hlt|Hge].
    + replace (S (List.length (l1 ++ l3)) - N.to_nat cap) with 0 in Ew by lia. cbn [skipn] in Ew. rewrite Ew in *.
      assert (Fresh : filter (at_second (t_timestamp t)) h = []).
      { destruct (filter (at_second (t_timestamp t)) h) as [|t' r] eqn:Ef; [reflexivity|].
        assert (Hin : In t' (filter (at_second (t_timestamp t)) h)) by (rewrite Ef; left; reflexivity). apply filter_In in Hin as [Hin Et]. apply Z.eqb_eq in Et.
        destruct (Hv t' Hin) as [(p & Hp & Ep)|[Hl _]]; [|lia]. apply in_app_or in Hp as [Hp|Hp]; [specialize (H1 p Hp)|specialize (H3 p Hp)]; lia. }
      constructor; auto.
      * intros p Hp. apply in_app_or in Hp as [Hp|[<-|Hp]].
        -- rewrite Fo by (specialize (H1 p Hp); lia). apply Hm. apply in_or_app; auto.
        -- rewrite filter_app, Fresh. cbn. unfold at_second. rewrite Z.eqb_refl. reflexivity.
        -- rewrite Fo by (specialize (H3 p Hp); lia). apply Hm. apply in_or_app; auto.
      * intros t' Ht'. left. apply in_app_or in Ht' as [Ht'|[<-|[]]].
        -- destruct (Hv t' Ht') as [(p & Hp & Ep)|[Hl _]]; [|lia]. exists p. split; [|assumption]. apply in_app_or in Hp as [Hp|Hp]; apply in_or_app; [auto|right; right; assumption].
        -- exists t. split; [apply in_or_app; right; left; reflexivity|reflexivity].
    + assert (Hlen : N.of_nat (List.length (l1 ++ l3)) = cap) by lia.
      replace (S (List.length (l1 ++ l3)) - N.to_nat cap) with 1 in Ew by lia. destruct l1 as [|a l1]; cbn [app skipn] in *; rewrite Ew in *.
      * cbn [app] in *. constructor; auto.
        -- intros p Hp. rewrite Fo by (specialize (H3 p Hp); lia). apply Hm. assumption.
        -- intros t' Ht'. apply in_app_or in Ht' as [Ht'|[<-|[]]]; [apply Hv; assumption|]. right. split; [assumption|]. exact H3'.
      * cbn [app] in *. assert (Ha : (t_timestamp a < t_timestamp t)%Z) by (apply H1; left; reflexivity).
        assert (Hal : Forall (earlier a) (l1 ++ t :: l3)).
        { inversion Hs as [|? ? _ Hal]; subst. apply Forall_app in Hal as [A1 A2]. apply Forall_app. split; [assumption|]. constructor; assumption. }
        assert (Fresh : filter (at_second (t_timestamp t)) h = []).
        { destruct (filter (at_second (t_timestamp t)) h) as [|t' r] eqn:Ef; [reflexivity|].
          assert (Hin : In t' (filter (at_second (t_timestamp t)) h)) by (rewrite Ef; left; reflexivity). apply filter_In in Hin as [Hin Et]. apply Z.eqb_eq in Et.
          destruct (Hv t' Hin) as [(p & Hp & Ep)|[_ Hf]].
          - destruct Hp as [<-|Hp]; [lia|]. apply in_app_or in Hp as [Hp|Hp]; [specialize (H1 p (or_intror Hp))|specialize (H3 p Hp)]; lia.
          - inversion Hf as [|? ? Hf1 _]; subst. unfold earlier in Hf1. lia. }
        assert (Hlen' : N.of_nat (List.length (l1 ++ t :: l3)) = cap) by (rewrite <- Hlen; cbn [List.length]; rewrite !app_length; cbn [List.length]; lia).
        constructor; auto.
        -- intros p Hp. apply in_app_or in Hp as [Hp|[<-|Hp]].
           ++ rewrite Fo by (specialize (H1 p (or_intror Hp)); lia). apply Hm. right. apply in_or_app; auto.
           ++ rewrite filter_app, Fresh. cbn. unfold at_second. rewrite Z.eqb_refl. reflexivity.
           ++ rewrite Fo by (specialize (H3 p Hp); lia). apply Hm. right. apply in_or_app; auto.
        -- intros t' Ht'. apply in_app_or in Ht' as [Ht'|[<-|[]]].
           ++ destruct (Hv t' Ht') as [(p & Hp & Ep)|[_ Hf]].
              ** destruct Hp as [<-|Hp].
                 --- right. split; [assumption|]. rewrite Forall_forall in *. intros q Hq. specialize (Hal q Hq). unfold earlier in *. lia.
                 --- left. exists p. split; [|assumption]. apply in_app_or in Hp as [Hp|Hp]; apply in_or_app; [auto|right; right; assumption].
              ** right. split; [assumption|]. inversion Hf as [|? ? Hf1 _]; subst. rewrite Forall_forall in *. intros q Hq. specialize (Hal q Hq). unfold earlier in *. lia.
           ++ left. exists t. split; [apply in_or_app; right; left; reflexivity|reflexivity].
Qed.
Lemma window_of_one cap t : (1 <= cap)%N -> window_of cap [t] [t].
Proof.
  intros Hc. constructor.
  - repeat constructor.
  - cbn. lia.
  - intros p [<-|[]]. cbn. unfold at_second. rewrite Z.eqb_refl. reflexivity.
  - intros t' [<-|[]]. left. exists t. cbn. auto.
Qed.

(** ** one metric's accumulator through a history *)
Definition lane_start (cap : N) (t : telemetry) : option acc :=
  match t_kind t with
  | MSummarize => match t_query t fone with Some v => Some (AWin cap v 1 [t]) | None => None end
  | _ => Some (APerp t)
  end.
Definition lane_step (cap : N) (n : string) (x : option acc) (o : pop) : option (option acc) :=
  match o with
  | PPurge now => Some (option_map (fun a => fst (a_purge now a)) x)
  | PInsert t =>
      if seqb (t_name t) n then
        match x with
        | None => option_map Some (lane_start cap t)
        | Some a => if meth_eqb (a_kind a) (t_kind t) then option_map Some (a_insert a t) else Some x
        end
      else Some x
  end.
Fixpoint lane_run (cap : N) (n : string) (x : option acc) (ops : list pop) : option (option acc) :=
  match ops with [] => Some x | o :: r => match lane_step cap n x o with Some x' => lane_run cap n x' r | None => None end end.
Lemma lane_run_snoc cap n ops o : forall x, lane_run cap n x (ops ++ [o]) = match lane_run cap n x ops with Some x' => lane_step cap n x' o | None => None end.
Proof.
  induction ops as [|p ops IH]; intros x; cbn.
  - destruct (lane_step cap n x o); reflexivity.
  - destruct (lane_step cap n x p); [apply IH|reflexivity].
Qed.
Lemma purge_lookup now a n : alookup seqb n (pa_data (pa_purge now a)) = option_map (fun a => fst (a_purge now a)) (alookup seqb n (pa_data a)).
Proof. unfold pa_purge. cbn. induction (pa_data a) as [|[k v] r IH]; [reflexivity|]. cbn. destruct (seqb n k); [reflexivity|exact IH]. Qed.
Lemma insert_lane a t a' b n : pa_insert a t = Some (a', b) ->
  pa_cap a' = pa_cap a /\ lane_step (pa_cap a) n (alookup seqb n (pa_data a)) (PInsert t) = Some (alookup seqb n (pa_data a')).
Proof.
  unfold pa_insert, lane_step, lane_start. intros E. destruct (seqb (t_name t) n) eqn:En.
  - apply seqb_eq in En. subst n. destruct (alookup seqb (t_name t) (pa_data a)) as [prev|] eqn:El.
    + destruct (meth_eqb (a_kind prev) (t_kind t)); [|injection E as <- <-; rewrite El; auto].
      destruct (a_insert prev t) as [x|]; [|discriminate]. injection E as <- <-. cbn [pa_cap pa_data]. rewrite (alookup_ainsert_eq seqb seqb_eq). auto.
    + destruct (t_kind t); try (injection E as <- <-; cbn [pa_cap pa_data]; rewrite (alookup_ainsert_eq seqb seqb_eq); auto).
      destruct (t_query t fone); [|discriminate]. injection E as <- <-; cbn [pa_cap pa_data]; rewrite (alookup_ainsert_eq seqb seqb_eq); auto.
  - assert (Hn : t_name t <> n) by (intros H; apply seqb_eq in H; congruence).
    destruct (alookup seqb (t_name t) (pa_data a)) as [prev|].
    + destruct (meth_eqb (a_kind prev) (t_kind t)); [|injection E as <- <-; auto].
      destruct (a_insert prev t); [|discriminate]. injection E as <- <-. cbn [pa_cap pa_data]. rewrite (alookup_ainsert_ne seqb seqb_eq) by assumption. auto.
    + destruct (t_kind t); try (injection E as <- <-; cbn [pa_cap pa_data]; rewrite (alookup_ainsert_ne seqb seqb_eq) by assumption; auto).
      destruct (t_query t fone); [|discriminate]. injection E as <- <-; cbn [pa_cap pa_data]; rewrite (alookup_ainsert_ne seqb seqb_eq) by assumption; auto.
Qed.
Lemma run_lane n ops : forall a a' bs, pa_run ops a = Some (a', bs) ->
  pa_cap a' = pa_cap a /\ lane_run (pa_cap a) n (alookup seqb n (pa_data a)) ops = Some (alookup seqb n (pa_data a')).
Proof.
  induction ops as [|o ops IH]; intros a a' bs E; cbn [pa_run lane_run] in *.
  - injection E as <- <-. auto.
  - destruct o as [t|now].
    + destruct (pa_insert a t) as [[a1 b]|] eqn:Ei; [|discriminate]. destruct (pa_run ops a1) as [[a2 bs2]|] eqn:Er; [|discriminate]. injection E as <- <-.
      destruct (insert_lane _ _ _ _ n Ei) as [Hc Hl]. rewrite Hl. destruct (IH _ _ _ Er) as [Hc2 Hl2]. rewrite Hc in *. auto.
    + destruct (IH _ _ _ E) as [Hc Hl]. cbn [lane_step]. rewrite <- purge_lookup. auto.
Qed.

Lemma inserted_app a b : inserted (a ++ b) = inserted a ++ inserted b.
Proof. apply flat_map_app. Qed.
Lemma of_metric_app n k a b : of_metric n k (a ++ b) = of_metric n k a ++ of_metric n k b.
Proof. apply filter_app. Qed.
Lemma of_metric_other n k t : (t_name t <> n \/ t_kind t <> k) -> of_metric n k [t] = [].
Proof.
  intros H. unfold of_metric. cbn. destruct (seqb (t_name t) n) eqn:E1; cbn; [|reflexivity]. destruct (meth_eqb (t_kind t) k) eqn:E2; [|reflexivity].
  apply seqb_eq in E1. apply meth_eqb_eq in E2. destruct H; contradiction.
Qed.
Lemma of_metric_self t : of_metric (t_name t) (t_kind t) [t] = [t].
Proof. unfold of_metric. cbn. assert (seqb (t_name t) (t_name t) = true) as -> by (apply seqb_eq; reflexivity). assert (meth_eqb (t_kind t) (t_kind t) = true) as -> by (apply meth_eqb_eq; reflexivity). reflexivity. Qed.
Lemma of_metric_one n k t : t_name t = n -> t_kind t = k -> of_metric n k [t] = [t].
Proof. intros <- <-. apply of_metric_self. Qed.
Lemma of_metric_none n k l : (forall t, In t l -> t_name t <> n) -> of_metric n k l = [].
Proof. induction l as [|t l IH]; intros H; [reflexivity|]. change (t :: l) with ([t] ++ l). rewrite of_metric_app, of_metric_other by (left; apply H; left; reflexivity). apply IH. intros; apply H; right; assumption. Qed.

Definition named (n : string) (t : telemetry) : bool := seqb (t_name t) n.
Definition lane_ok (cap : N) (n : string) (ops : list pop) (x : option acc) : Prop :=
  match x with
  | None => forall t, In t (inserted ops) -> t_name t <> n
  | Some a =>
      (exists t0, find (named n) (inserted ops) = Some t0 /\ t_kind t0 = a_kind a) /\
      match a with
      | APerp p => t_kind p <> MSummarize /\ t_name p = n /\ merged (of_metric n (t_kind p) (inserted ops)) = Some p
      | AWin c s k samples =>
          let pts := of_metric n MSummarize (inserted ops) in
          c = cap /\ Forall (fun t => t_name t = n /\ t_kind t = MSummarize) samples /\
          StronglySorted earlier samples /\ (1 <= cap -> N.of_nat (List.length samples) <= cap)%N /\
          (k = (N.of_nat (List.length pts) - 1) mod 18446744073709551614 + 1)%N /\
          (exists v vs, Forall2 (fun t v => t_query t fone = Some v) pts (v :: vs) /\ s = fold_left sum_up vs v) /\
          ((1 <= cap)%N -> (forall now, ~ In (PPurge now) ops) -> window_of cap pts samples)
      end
  end.
Lemma find_snoc {A} (f : A -> bool) l x : find f (l ++ [x]) = match find f l with Some y => Some y | None => if f x then Some x else None end.
Proof. induction l as [|y l IH]; cbn; [destruct (f x); reflexivity|]. destruct (f y); [reflexivity|exact IH]. Qed.
Lemma find_named_none n l : (forall t, In t l -> t_name t <> n) -> find (named n) l = None.
Proof. intros H. destruct (find (named n) l) as [t|] eqn:E; [|reflexivity]. apply find_some in E as [E1 E2]. apply seqb_eq in E2. exfalso. exact (H t E1 E2). Qed.
Lemma sorted_filter {A} (R : A -> A -> Prop) f l : StronglySorted R l -> StronglySorted R (filter f l).
Proof.
  induction 1 as [|x l Hs IH Hx]; [constructor|]. cbn. destruct (f x); [|assumption]. constructor; [assumption|].
  rewrite Forall_forall in *. intros y Hy. apply filter_In in Hy as [Hy _]. auto.
Qed.
Lemma filter_le {A} (f : A -> bool) l : List.length (filter f l) <= List.length l.
Proof. induction l as [|x l IH]; cbn; [lia|]. destruct (f x); cbn; lia. Qed.

Lemma Forall2_length_N {A B} (R : A -> B -> Prop) l y r : Forall2 R l (y :: r) -> (1 <= N.of_nat (List.length l))%N.
Proof. intros H. inversion H; subst. cbn [List.length]. lia. Qed.
(** the count restarts at one after 2^64 - 2 *)
Lemma count_up_spec m : 1 <= m -> count_up ((N.of_nat m - 1) mod 18446744073709551614 + 1) = ((N.of_nat (m + 1) - 1) mod 18446744073709551614 + 1)%N.
Proof.
  intros H. replace (N.of_nat (m + 1) - 1)%N with (N.of_nat m - 1 + 1)%N by lia. set (x := (N.of_nat m - 1)%N).
  pose proof (N.div_mod x 18446744073709551614 ltac:(discriminate)) as E.
  pose proof (N.mod_upper_bound x 18446744073709551614 ltac:(discriminate)) as B.
  set (q := (x / 18446744073709551614)%N) in *. set (r := (x mod 18446744073709551614)%N) in *.
  unfold count_up. destruct (N.leb_spec (18446744073709551615 - (r + 1)) 1).
  - rewrite <- (N.mod_unique (x + 1) 18446744073709551614 (q + 1) 0)%N; [reflexivity|lia|]. lia.
  - rewrite <- (N.mod_unique (x + 1) 18446744073709551614 q (r + 1))%N; [reflexivity|lia|]. lia.
Qed.

Lemma lane_run_ok cap n ops : forall x, lane_run cap n None ops = Some x -> lane_ok cap n ops x.
Proof.
  induction ops as [|o ops IH] using rev_ind; intros x E.
  - cbn in E. injection E as <-. cbn. tauto.
  - rewrite lane_run_snoc in E. destruct (lane_run cap n None ops) as [x0|]; [|discriminate]. specialize (IH x0 eq_refl).
    assert (Keep : forall t, (forall a, x0 = Some a -> t_name t <> n \/ t_kind t <> a_kind a) -> (x0 = None -> t_name t <> n) -> o = PInsert t -> lane_ok cap n (ops ++ [o]) x0).
    { intros t Hne Hnone ->. unfold lane_ok in *. rewrite inserted_app. change (inserted [PInsert t]) with [t]. destruct x0 as [a|].
      - destruct IH as [(t0 & F0 & K0) IH]. split; [exists t0; rewrite find_snoc, F0; auto|]. specialize (Hne a eq_refl).
        destruct a as [p|c s k samples]; cbn [a_kind] in *; rewrite of_metric_app, (of_metric_other _ _ t) by assumption; rewrite app_nil_r; [exact IH|].
        destruct IH as (I1 & I2 & I3 & I4 & I5 & I6 & I7). conj; auto. intros Hc Hp. apply I7; [assumption|]. intros now Hin. apply (Hp now). apply in_or_app; auto.
      - intros t' Ht'. apply in_app_or in Ht' as [Ht'|[<-|[]]]; [apply IH; assumption|auto]. }
    destruct o as [t|now]; cbn [lane_step] in E.
    + destruct (seqb (t_name t) n) eqn:En.
      * apply seqb_eq in En. destruct x0 as [a|].
        -- destruct (meth_eqb (a_kind a) (t_kind t)) eqn:Ek.
           ++ apply meth_eqb_eq in Ek. destruct (a_insert a t) as [a'|] eqn:Ei; [|discriminate]. injection E as <-. unfold lane_ok in *. rewrite inserted_app. change (inserted [PInsert t]) with [t].
              destruct IH as [(t0 & F0 & K0) IH]. destruct a as [p|c s k samples]; cbn [a_insert a_kind] in *.
              ** injection Ei as <-. cbn [a_kind]. rewrite kind_add. destruct IH as (I1 & I2 & I3). split; [exists t0; rewrite find_snoc, F0; split; [reflexivity|congruence]|].
                 split; [congruence|]. split; [exact I2|]. rewrite of_metric_app, (of_metric_one _ _ t) by auto. rewrite merged_snoc', <- Ek, I3. reflexivity.
              ** rewrite <- Ek in Ei. destruct (t_query t fone) as [v|] eqn:Eq; [|discriminate].
                 destruct (N.leb_spec (N.of_nat (List.length (window_add c samples t))) c) as [Hle|]; [|discriminate]. injection Ei as <-. cbn [a_kind].
                 destruct IH as (-> & I2 & I3 & I4 & I5 & (v0 & vs & I6 & I6') & I7). split; [exists t0; rewrite find_snoc, F0; auto|].
                 assert (Epts : of_metric n MSummarize (inserted ops ++ [t]) = of_metric n MSummarize (inserted ops) ++ [t]).
                 { rewrite of_metric_app, (of_metric_one _ _ t) by auto. reflexivity. }
                 rewrite Epts. split; [reflexivity|]. split; [|split; [|split; [|split; [|split]]]].
                 --- apply Forall_forall. intros q Hq. rewrite Forall_forall in I2.
                     destruct (window_add_shape cap samples t I3) as [(l1 & y & l3 & -> & _ & _ & _ & Ew)|(l1 & l3 & -> & _ & _ & Ew)]; rewrite Ew in Hq.
                     +++ apply in_app_or in Hq as [Hq|[<-|Hq]]; [apply I2, in_or_app; auto| |apply I2, in_or_app; right; right; assumption].
                         split; [cbn; apply (I2 y), in_or_app; right; left; reflexivity|rewrite kind_add; auto].
                     +++ assert (Hq' : In q (l1 ++ t :: l3)) by (rewrite <- (firstn_skipn (S (List.length (l1 ++ l3)) - N.to_nat cap) (l1 ++ t :: l3)); apply in_or_app; right; exact Hq).
                         apply in_app_or in Hq' as [Hq'|[<-|Hq']]; [apply I2, in_or_app; auto|auto|apply I2, in_or_app; auto].
                 --- destruct (window_add_shape cap samples t I3) as [(l1 & y & l3 & -> & H1 & H2 & H3 & ->)|(l1 & l3 & -> & H1 & H3 & ->)].
                     +++ apply (sorted_put l1 l3 (t_add y t)); [|cbn; rewrite H2; assumption|cbn; rewrite H2; assumption].
                         apply sorted_app_inv in I3 as (S1 & S3 & S13). inversion S3; subst. apply sorted_app; auto. intros p q Hp Hq. apply S13; [assumption|right; assumption].
                     +++ apply sorted_skipn, sorted_put; assumption.
                 --- intros _. exact Hle.
                 --- rewrite app_length. cbn [List.length]. rewrite I5. apply Forall2_length_N in I6. apply count_up_spec. lia.
                 --- exists v0, (vs ++ [v]). split; [|rewrite fold_left_app, I6'; reflexivity]. change (v0 :: vs ++ [v]) with ((v0 :: vs) ++ [v]). apply Forall2_app; [assumption|]. constructor; [assumption|constructor].
                 --- intros Hc Hp. apply window_add_of; [assumption|]. apply I7; [assumption|]. intros now Hin. apply (Hp now). apply in_or_app; auto.
           ++ injection E as <-. apply (Keep t); auto. intros a0 [= ->]. right. intros H. symmetry in H. apply meth_eqb_eq in H. congruence. discriminate.
        -- unfold lane_ok in *. rewrite inserted_app. change (inserted [PInsert t]) with [t].
           assert (F0 : find (named n) (inserted ops ++ [t]) = Some t) by (rewrite find_snoc, (find_named_none _ _ IH); unfold named; apply seqb_eq in En; rewrite En; reflexivity).
           unfold lane_start in E.
           assert (Epts : of_metric n (t_kind t) (inserted ops ++ [t]) = [t]) by (rewrite of_metric_app, (of_metric_none _ _ _ IH); apply of_metric_one; auto).
           destruct (t_kind t) eqn:Ek; cbn [option_map] in E; try (injection E as <-; cbn [a_kind]; split; [exists t; rewrite F0; auto|]; rewrite Ek; split; [discriminate|]; split; [assumption|]; rewrite Epts; reflexivity).
           destruct (t_query t fone) as [v|] eqn:Eq; [|discriminate]. injection E as <-. cbn [a_kind]. split; [exists t; rewrite F0; auto|]. rewrite Epts.
           conj; auto.
           ++ repeat constructor.
           ++ exists v, []. split; [repeat constructor; assumption|reflexivity].
           ++ intros Hc _. apply window_of_one. assumption.
      * injection E as <-. assert (Hn : t_name t <> n) by (intros H; apply seqb_eq in H; congruence). apply (Keep t); auto.
    + injection E as <-. unfold lane_ok in *. rewrite inserted_app, app_nil_r. destruct x0 as [a|]; [|exact IH]. cbn [option_map]. destruct a as [p|c s k samples]; [exact IH|]. cbn [a_purge fst a_kind] in *.
      destruct IH as [IH0 (-> & I2 & I3 & I4 & I5 & I6 & I7)]. split; [assumption|]. conj; auto.
      * rewrite Forall_forall in *. intros q Hq. apply filter_In in Hq as [Hq _]. auto.
      * apply sorted_filter. assumption.
      * intros Hc. specialize (I4 Hc). pose proof (filter_le (fun t => negb (as_i64 cap <? abs64 (wrap64 (t_timestamp t - now)))%Z) samples). lia.
      * intros _ Hp. exfalso. apply (Hp now). apply in_or_app; right; left; reflexivity.
Qed.
Lemma run_lane_ok cap n ops a bs : pa_run ops (pa_new cap) = Some (a, bs) -> lane_ok cap n ops (alookup seqb n (pa_data a)).
Proof. intros E. apply (run_lane n) in E as [_ E]. apply lane_run_ok. exact E. Qed.

Lemma sums_agree vs : forall v, no_overflow v vs -> fold_left sum_up vs v = fold_left fadd vs v.
Proof. induction vs as [|x vs IH]; intros v H; [reflexivity|]. destruct H as [H1 H2]. cbn. unfold sum_up at 2. rewrite H1. apply IH. assumption. Qed.

(** ** keys *)
Lemma insert_keys a t a' b : pa_insert a t = Some (a', b) -> NoDup (map fst (pa_data a)) ->
  NoDup (map fst (pa_data a')) /\ forall k, In k (map fst (pa_data a')) <-> k = t_name t \/ In k (map fst (pa_data a)).
Proof.
  unfold pa_insert. intros E Hn. destruct (alookup seqb (t_name t) (pa_data a)) as [prev|] eqn:El.
  - assert (Hin : In (t_name t) (map fst (pa_data a))) by (apply (alookup_In seqb seqb_eq) in El; apply in_map_iff; exists (t_name t, prev); auto).
    destruct (meth_eqb _ _).
    + destruct (a_insert prev t); [|discriminate]. injection E as <- <-. cbn. split; [apply (ainsert_NoDup seqb seqb_eq); assumption|]. intros k. rewrite (ainsert_keys seqb seqb_eq). reflexivity.
    + injection E as <- <-. split; [assumption|]. intros k. split; [auto|]. intros [->|H]; assumption.
  - destruct (t_kind t); [| | |]; try (destruct (t_query t fone); [|discriminate]); injection E as <- <-; cbn; (split; [apply (ainsert_NoDup seqb seqb_eq); assumption|]; intros k; rewrite (ainsert_keys seqb seqb_eq); reflexivity).
Qed.
Lemma run_keys ops : forall a a' bs, pa_run ops a = Some (a', bs) -> NoDup (map fst (pa_data a)) ->
  NoDup (map fst (pa_data a')) /\ forall k, In k (map fst (pa_data a')) <-> In k (map fst (pa_data a)) \/ In k (map t_name (inserted ops)).
Proof.
  induction ops as [|o ops IH]; intros a a' bs E Hn; cbn [pa_run] in E.
  - injection E as <- <-. split; [assumption|]. cbn. tauto.
  - destruct o as [t|now].
    + destruct (pa_insert a t) as [[a1 b]|] eqn:Ei; [|discriminate]. destruct (pa_run ops a1) as [[a2 bs2]|] eqn:Er; [|discriminate]. injection E as <- <-.
      destruct (insert_keys _ _ _ _ Ei Hn) as [N1 K1]. destruct (IH _ _ _ Er N1) as [N2 K2]. split; [assumption|]. intros k. rewrite K2, K1. cbn [inserted flat_map app map In]. fold (inserted ops). split; [intros [[H|H]|H]; auto|intros [H|[H|H]]; auto].
    + assert (Em : map fst (pa_data (pa_purge now a)) = map fst (pa_data a)) by (unfold pa_purge; cbn; rewrite map_map; reflexivity).
      destruct (IH _ _ _ E) as [N2 K2]; [rewrite Em; assumption|]. rewrite Em in K2. auto.
Qed.

(** ** reports *)
Lemma fold_add_name r : forall t, t_name (fold_left t_add r t) = t_name t.
Proof. induction r as [|x r IH]; intros t; [reflexivity|]. cbn. rewrite IH. reflexivity. Qed.
Lemma fold_add_kind k r : forall t, t_kind t = k -> Forall (fun x => t_kind x = k) r -> t_kind (fold_left t_add r t) = k.
Proof. induction r as [|x r IH]; intros t Ht Hr; [assumption|]. inversion Hr; subst. cbn. apply IH; [rewrite kind_add; assumption|assumption]. Qed.
(** what a window reports: the merged samples, with the running totals *)
Lemma report_win cap s k s0 r : t_kind (fold_left t_add r s0) = MSummarize -> exists t,
  a_report (AWin cap s k (s0 :: r)) = Some (Some t) /\ t_name t = t_name s0 /\ t_kind t = MSummarize /\ t_value t = t_value (fold_left t_add r s0) /\
  t_tags t = t_tags (fold_left t_add r s0) /\ t_count t = k /\ t_samples_sum t = Some s.
Proof.
  intros Hk. unfold a_report, harden, b_count, b_sample_sum, thaw. cbn [s_initial s_thawed s_name s_kind s_timestamp s_persist s_bounds s_error s_count s_sum s_tags].
  unfold t_kind in *. rewrite Hk. destruct (t_value (fold_left t_add r s0)) as [|?|?|q0 s1] eqn:Ev; try discriminate. eexists. split; [reflexivity|].
  unfold t_count, t_samples_sum. cbn. rewrite fold_add_name. auto 10.
Qed.
Definition acc_named (n : string) (a : acc) : Prop :=
  match a with APerp p => t_name p = n | AWin _ _ _ samples => Forall (fun t => t_name t = n /\ t_kind t = MSummarize) samples end.
Lemma report_name n a t : acc_named n a -> a_report a = Some (Some t) -> t_name t = n.
Proof.
  destruct a as [p|c s k [|s0 r]]; intros Hn E.
  - injection E as <-. exact Hn.
  - discriminate.
  - inversion Hn as [|? ? [H1 H2] H3]; subst. destruct (report_win c s k s0 r) as (t' & Et & En & _); [|congruence].
    apply fold_add_kind; [assumption|]. eapply Forall_impl; [|exact H3]. intros x [_ H]. exact H.
Qed.
Lemma reported_names data l : Forall (fun kv => acc_named (fst kv) (snd kv)) data -> reported (map snd data) = Some l ->
  exists data', incl data' data /\ (NoDup (map fst data) -> NoDup (map fst data')) /\ map t_name l = map fst data'.
Proof.
  revert l. induction data as [|[n a] data IH]; intros l H E.
  - injection E as <-. exists []. repeat split; auto using incl_refl.
  - inversion H as [|? ? Hn Hd]; subst. cbn in E, Hn. destruct (a_report a) as [[t|]|] eqn:Ea; [| |discriminate];
      (destruct (reported (map snd data)) as [ts|] eqn:Er; [|discriminate]); injection E as <-; destruct (IH _ Hd eq_refl) as (d' & I1 & I2 & I3).
    + exists ((n, a) :: d'). split; [intros x [<-|Hx]; [left; reflexivity|right; apply I1; assumption]|]. split.
      * cbn. intros Hnd. inversion Hnd as [|? ? N1 N2]; subst. constructor; [|auto]. intros Hin. apply N1. apply in_map_iff in Hin as (x & <- & Hx). apply in_map. auto.
      * cbn. rewrite I3. f_equal. eapply report_name; eassumption.
    + exists d'. split; [intros x Hx; right; auto|]. split; [|assumption]. cbn. intros Hnd. inversion Hnd; subst. auto.
Qed.
Lemma run_named cap ops a bs : pa_run ops (pa_new cap) = Some (a, bs) -> Forall (fun kv => acc_named (fst kv) (snd kv)) (pa_data a).
Proof.
  intros E. destruct (run_keys _ _ _ _ E) as [Hn _]; [constructor|]. apply Forall_forall. intros [n x] Hin. apply (In_alookup seqb seqb_eq) in Hin; [|assumption].
  pose proof (run_lane_ok cap n ops a bs E) as H. rewrite Hin in H. destruct H as [_ H]. destruct x as [p|c s k samples]; cbn in *; tauto.
Qed.
Lemma reportable_nodup cap ops a bs l : pa_run ops (pa_new cap) = Some (a, bs) -> pa_reportable a = Some l -> NoDup (map t_name l).
Proof.
  intros E R. destruct (run_keys _ _ _ _ E) as [Hn _]; [constructor|]. destruct (reported_names _ _ (run_named _ _ _ _ E) R) as (d & _ & H & ->). auto.
Qed.

(** ** exposition *)
Variable show_f : f64 -> string.
Lemma bucket_lines_samples name tags bins : forall run, Forall (fun l => is_type l = false /\ line_name l = name) (bucket_lines show_f name tags run bins).
Proof. induction bins as [|[b n] bins IH]; intros run; cbn; constructor; auto. Qed.
Lemma quantile_lines_samples name tags t qs : forall ls, quantile_lines show_f name tags t qs = Some ls -> Forall (fun l => is_type l = false /\ line_name l = name) ls.
Proof.
  induction qs as [|q qs IH]; intros ls E; cbn in E.
  - injection E as <-. constructor.
  - destruct (t_query t q); [|discriminate]. destruct (quantile_lines _ _ _ _ qs) as [ls'|]; [|discriminate]. injection E as <-. constructor; auto.
Qed.
Lemma write_one_block default seen t seen' ls : existsb (seqb (t_name t)) seen = false -> write_one show_f default seen t = Some (seen', ls) ->
  seen' = t_name t :: seen /\ block (sanitize (t_name t)) (type_of (t_kind t)) ls.
Proof.
  intros Hs E. unfold write_one in E. rewrite Hs in E. unfold t_kind, t_sum, t_set, t_bins in *.
  assert (Tot : forall name tags, Forall (fun l => is_type l = false /\ (line_name l = name \/ line_name l = (name ++ "_sum")%string \/ line_name l = (name ++ "_count")%string)) (totals name tags t)) by (intros; repeat constructor; auto).
  assert (W : forall name l, Forall (fun l => is_type l = false /\ line_name l = name) l -> Forall (fun l => is_type l = false /\ (line_name l = name \/ line_name l = (name ++ "_sum")%string \/ line_name l = (name ++ "_count")%string)) l).
  { intros name l. apply Forall_impl. intros x [H1 H2]. auto. }
  destruct (t_value t) as [x|x|h|c s]; cbn [value_kind value_sum value_set value_bins type_of] in *.
  - injection E as <- <-. split; [reflexivity|]. eexists. split; [reflexivity|]. repeat constructor; auto.
  - injection E as <- <-. split; [reflexivity|]. eexists. split; [reflexivity|]. repeat constructor; auto.
  - injection E as <- <-. split; [reflexivity|]. eexists. split; [reflexivity|]. apply Forall_app. split; [apply W, bucket_lines_samples|apply Tot].
  - destruct (quantile_lines _ _ _ _ _) as [q|] eqn:Eq; [|discriminate]. injection E as <- <-. split; [reflexivity|]. eexists. split; [reflexivity|]. apply Forall_app. split; [eapply W, quantile_lines_samples; eassumption|apply Tot].
Qed.
Lemma write_lines_blocks default l : forall seen ls, NoDup (map t_name l) -> (forall n, In n seen -> ~ In n (map t_name l)) -> write_lines show_f default seen l = Some ls ->
  exists bs, ls = List.concat bs /\ Forall2 (fun t b => block (sanitize (t_name t)) (type_of (t_kind t)) b /\ exists seen seen', write_one show_f default seen t = Some (seen', b) /\ existsb (seqb (t_name t)) seen = false) l bs.
Proof.
  induction l as [|t l IH]; intros seen ls Hn Hs E; cbn [write_lines] in E.
  - injection E as <-. exists []. split; [reflexivity|constructor].
  - destruct (write_one _ _ _ _) as [[seen' ls1]|] eqn:E1; [|discriminate]. destruct (write_lines _ _ _ l) as [ls2|] eqn:E2; [|discriminate]. injection E as <-.
    assert (Hseen : existsb (seqb (t_name t)) seen = false).
    { destruct (existsb (seqb (t_name t)) seen) eqn:Ee; [|reflexivity]. apply existsb_exists in Ee as (x & Hx & Ex). apply seqb_eq in Ex. subst x. exfalso. apply (Hs _ Hx). left; reflexivity. }
    pose proof E1 as E1'. apply write_one_block in E1 as [-> Hb]; [|assumption].
    inversion Hn as [|? ? N1 N2]; subst. 
    assert (Hs2 : forall n, In n (t_name t :: seen) -> ~ In n (map t_name l)) by (intros n [<-|H]; [exact N1|intros H'; apply (Hs n H); right; exact H']).
    destruct (IH _ _ N2 Hs2 E2) as (bs & -> & Hf).
    exists (ls1 :: bs). split; [reflexivity|]. constructor; [split; [assumption|eauto]|assumption].
Qed.
Lemma quantile_lines_spec name tags t : forall qs ls, quantile_lines show_f name tags t qs = Some ls ->
  exists vs, Forall2 (fun q v => t_query t q = Some v) qs vs /\
    ls = map (fun qv => PSample name (Some ("quantile", show_f (fst qv))) tags (QF (snd qv))) (combine qs vs).
Proof.
  induction qs as [|q qs IH]; intros ls E; cbn in E.
  - injection E as <-. exists []. split; [constructor|reflexivity].
  - destruct (t_query t q) as [v|] eqn:Ev; [|discriminate]. destruct (quantile_lines _ _ _ _ qs) as [ls'|]; [|discriminate]. injection E as <-.
    destruct (IH _ eq_refl) as (vs & H1 & ->). exists (v :: vs). split; [constructor; assumption|reflexivity].
Qed.
Lemma bucket_lines_nth name tags : forall bins run,
  bucket_lines show_f name tags run bins =
  map (fun i => PSample name (Some ("le", match nth i (map fst bins) BPosInf with BFinite x => show_f x | BPosInf => "+Inf" end)) tags
     (QN (run + sumN (map snd (firstn (S i) bins))))) (seq 0 (List.length bins)).
Proof.
  induction bins as [|[b n] bins IH]; intros run; [reflexivity|]. cbn [bucket_lines List.length seq map]. f_equal.
  - cbn. do 2 f_equal. lia.
  - rewrite IH, <- seq_shift, map_map. apply map_ext. intros i. cbn [nth map firstn fst snd]. do 2 f_equal. unfold sumN. cbn [fold_right]. lia.
Qed.
Lemma write_one_exposed default seen t seen' ls : existsb (seqb (t_name t)) seen = false -> write_one show_f default seen t = Some (seen', ls) ->
  exposed show_f default t ls.
Proof.
  intros Hs E. unfold write_one in E. rewrite Hs in E. destruct (t_kind t) eqn:Ek.
  - destruct (t_sum t) as [v|] eqn:Ev; [|unfold t_sum, t_kind in *; destruct (t_value t); discriminate]. injection E as <- <-. apply ex_sum; assumption.
  - destruct (t_set t) as [v|] eqn:Ev; [|unfold t_set, t_kind in *; destruct (t_value t); discriminate]. injection E as <- <-. apply ex_set; assumption.
  - destruct (quantile_lines _ _ _ _ _) as [q|] eqn:Eq; [|discriminate]. injection E as <- <-.
    apply quantile_lines_spec in Eq as (vs & H1 & ->). unfold totals. destruct (t_samples_sum t) as [x|] eqn:Ex.
    + apply ex_summary; assumption.
    + unfold t_samples_sum, t_kind in *. destruct (t_value t); try discriminate. destruct (t_override_sum t); discriminate.
  - destruct (t_bins t) as [bins|] eqn:Eb; [|unfold t_bins, t_kind in *; destruct (t_value t); discriminate]. injection E as <- <-.
    eapply ex_hist; try eassumption.
    + destruct (t_samples_sum t) as [x|]; [left; reflexivity|right; split; reflexivity].
    + rewrite bucket_lines_nth. reflexivity.
Qed.
Fixpoint cumulate (run : N) (l : list N) : list N := match l with [] => [] | x :: r => (run + x)%N :: cumulate (run + x)%N r end.
Lemma bucket_lines_eq name tags bins : forall run,
  bucket_lines show_f name tags run bins =
  map (fun p => PSample name (Some ("le", match fst p with BFinite x => show_f x | BPosInf => "+Inf" end)) tags (QN (snd p))) (combine (map fst bins) (cumulate run (map snd bins))).
Proof. induction bins as [|[b n] bins IH]; intros run; [reflexivity|]. cbn. rewrite IH. rewrite (N.add_comm n run). reflexivity. Qed.
Lemma cumulate_nth l : forall run i, i < List.length l -> nth i (cumulate run l) 0%N = (run + sumN (firstn (S i) l))%N.
Proof.
  induction l as [|x l IH]; intros run i Hi; [cbn in Hi; lia|]. destruct i as [|i].
  - cbn. unfold sumN. cbn. lia.
  - cbn [cumulate nth]. rewrite IH by (cbn in Hi; lia). change (firstn (S (S i)) (x :: l)) with (x :: firstn (S i) l). unfold sumN. cbn [fold_right]. lia.
Qed.
Lemma cumulate_length l : forall run, List.length (cumulate run l) = List.length l.
Proof. induction l; intros; cbn; auto. Qed.
Lemma cumulate_sorted l : forall run, Sorted N.le (cumulate run l).
Proof. induction l as [|x l IH]; intros run; cbn; constructor; [apply IH|]. destruct l as [|y l]; cbn; constructor. lia. Qed.
Lemma cumulate_last l : forall run, last (cumulate run l) run = (run + sumN l)%N.
Proof.
  induction l as [|x l IH]; intros run; [cbn; unfold sumN; cbn; lia|]. cbn [cumulate]. specialize (IH (run + x)%N).
  destruct (cumulate (run + x) l) as [|y r] eqn:E.
  - cbn in *. unfold sumN in *. cbn [fold_right]. lia.
  - change (last ((run + x)%N :: y :: r) run) with (last (y :: r) run). assert (L : forall d d', last (y :: r) d = last (y :: r) d').
    { clear. revert y. induction r as [|z r IH]; intros y d d'; [reflexivity|]. exact (IH z d d'). }
    rewrite (L run (run + x)%N), IH. unfold sumN. cbn [fold_right]. lia.
Qed.
End Proofs.
