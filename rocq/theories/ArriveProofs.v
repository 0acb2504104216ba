(** * Proofs: from the calls of a sink to what it sends. *)
From Verif Require Import Base BaseFacts TelemetryModel TelemetrySpec BucketsModel BucketsSpec BucketsProofs BucketsProps ConsoleModel ConsoleSpec ConsoleProofs FlowModel FlowSpec ShownSpec
  ElasticModel ElasticSpec ElasticProofs ElasticProps CacheModel CacheProofs CacheProps WavefrontModel WavefrontSpec WavefrontProofs WavefrontProps InfluxModel InfluxSpec InfluxProofs InfluxProps ArriveSpec.
From Coq Require Import Lia.
Open Scope string_scope. Open Scope list_scope. Open Scope nat_scope.

Section Proofs.
Context {Q : QLib}.

Lemma does_app {O} (does : sink_call -> list O -> Prop) cs1 cs2 os : does_all does (cs1 ++ cs2) os ->
  exists os1 os2, does_all does cs1 os1 /\ does_all does cs2 os2 /\ os = os1 ++ os2.
Proof.
  intros (ps & F & ->). apply Forall2_app_inv_l in F as (p1 & p2 & F1 & F2 & ->). exists (List.concat p1), (List.concat p2).
  rewrite concat_app. split; [|split]; [exists p1|exists p2|]; auto.
Qed.
Lemma does_cons {O} (does : sink_call -> list O -> Prop) c cs os : does_all does (c :: cs) os ->
  exists os1 os2, does c os1 /\ does_all does cs os2 /\ os = os1 ++ os2.
Proof. intros (ps & F & ->). inversion F as [|? p ? ps' H1 H2]; subst. exists p, (List.concat ps'). split; [assumption|]. split; [|reflexivity]. exists ps'. auto. Qed.
Lemma first_in f c3 : flushing f = true -> forall c2, exists d2 g d3, c2 ++ f :: c3 = d2 ++ g :: d3 /\ flushing g = true /\ Forall (fun c => flushing c = false) d2.
Proof.
  intros Hf. induction c2 as [|c c2 (d2 & g & d3 & E & Hg & F)]; [exists [], f, c3; auto|]. destruct (flushing c) eqn:Ec.
  - exists [], c, (c2 ++ f :: c3). auto.
  - exists (c :: d2), g, d3. cbn. rewrite E. auto.
Qed.
Lemma first_flush e cs : flushed_after e cs -> exists c1 c2 f c3, cs = c1 ++ CDeliver e :: c2 ++ f :: c3 /\ flushing f = true /\ Forall (fun c => flushing c = false) c2.
Proof. intros (c1 & c2 & f & c3 & -> & Hf). destruct (first_in f c3 Hf c2) as (d2 & g & d3 & -> & Hg & F). exists c1, d2, g, d3. auto. Qed.

(** ** InfluxDB *)
Section Influx.
Variable show_f : f64 -> string.
Variable show_n : N -> string.
Hypothesis Hsh : shows show_f.
Variable tags : tagmap.
Notation run := (i_run show_f show_n tags).
Definition influx_points (os : list iop) : list telemetry := flat_map (fun o => match o with IDeliver t => [t] | _ => [] end) os.
Lemma influx_points_calls cs : forall os, does_all influx_does cs os -> influx_points os = points_in (delivered cs).
Proof.
  induction cs as [|c cs IH]; intros os D; [destruct D as (ps & F & ->); inversion F; reflexivity|].
  apply does_cons in D as (os1 & os2 & D1 & D2 & ->). unfold influx_points. rewrite flat_map_app. fold (influx_points os2). rewrite (IH _ D2).
  destruct c as [[]| | |]; cbn in D1; try destruct D1 as (? & ->); subst; reflexivity.
Qed.
Lemma influx_so_far os : forall s0 c0 s c posts, run os s0 c0 = Some (s, c, posts) ->
  exists batches, all3 (posted show_f show_n tags) batches posts (influx_answers os) /\ i_aggrs s0 ++ influx_points os = List.concat batches ++ i_aggrs s.
Proof.
  induction os as [|o os IH]; intros s0 c0 s c posts E; cbn [i_run] in E.
  - injection E as <- <- <-. exists []. split; [constructor|]. cbn. apply app_nil_r.
  - destruct o as [t|ans].
    + destruct (IH _ _ _ _ _ E) as (bs & A & Eq). exists bs. split; [exact A|]. cbn [i_deliver i_aggrs] in Eq. rewrite <- Eq, <- app_assoc. reflexivity.
    + destruct (i_flush show_f show_n tags s0 c0 ans) as [| |s1 c1 p1] eqn:Ef; try discriminate. destruct (run os s1 c1) as [[[s2 c2] p2]|] eqn:Er; [|discriminate]. injection E as <- <- <-.
      destruct (C58_posted_until_accepted Q show_f show_n Hsh tags s0 c0 ans s1 c1 p1 Ef) as (b & code & af & Ea & Fb & Hc & Ep & E0).
      destruct (IH _ _ _ _ _ Er) as (bs & A & Eq). exists (i_aggrs s0 :: bs). rewrite E0 in Eq. cbn in Eq. split.
      * cbn [influx_answers flat_map app]. constructor; [|exact A]. split.
        { apply Forall_forall. intros p Hp. apply (in_map fst) in Hp. rewrite Ep in Hp. apply repeat_spec in Hp. exact Hp. }
        exists b, code, af. split; [exact Ea|]. split; [exact Hc|]. split.
        { eapply Forall_impl; [|exact Fb]. intros [|n]; cbn; auto. }
        { rewrite <- (map_length fst), Ep, repeat_length. reflexivity. }
      * cbn [influx_points flat_map app List.concat]. rewrite <- app_assoc, <- Eq. reflexivity.
Qed.
Lemma influx_run_app os1 : forall os2 s0 c0 s c posts, run (os1 ++ os2) s0 c0 = Some (s, c, posts) ->
  exists s1 c1 p1 p2, run os1 s0 c0 = Some (s1, c1, p1) /\ run os2 s1 c1 = Some (s, c, p2) /\ posts = p1 ++ p2.
Proof.
  induction os1 as [|o os1 IH]; intros os2 s0 c0 s c posts E; [exists s0, c0, [], posts; auto|]. cbn [app i_run] in E |- *. destruct o as [t|ans]; [exact (IH _ _ _ _ _ _ E)|].
  destruct (i_flush show_f show_n tags s0 c0 ans) as [| |s1 c1 p1] eqn:Ef; try discriminate. destruct (run (os1 ++ os2) s1 c1) as [[[s2 c2] p2]|] eqn:Er; [|discriminate]. injection E as <- <- <-.
  destruct (IH _ _ _ _ _ _ Er) as (s3 & c3 & p3 & p4 & E1 & E2 & ->). exists s3, c3, (p1 :: p3), p4. rewrite E1. auto.
Qed.
Lemma all3_app {A B C} (P : A -> B -> C -> Prop) la lb lc la' lb' lc' : all3 P la lb lc -> all3 P la' lb' lc' -> all3 P (la ++ la') (lb ++ lb') (lc ++ lc').
Proof. induction 1; intros H'; [exact H'|]. constructor; auto. Qed.
Lemma influx_flushed cs1 f cs2 : flushing f = true -> influx_gives show_f show_n tags (cs1 ++ f :: cs2) (points_in (delivered cs1)).
Proof.
  intros Hf os c s c' posts D E. apply does_app in D as (os1 & os2 & D1 & D2 & ->). apply does_cons in D2 as (of & os3 & Df & D3 & ->).
  assert (exists ans, of = [IFlush ans]) as (ans & ->) by (destruct f; [discriminate|..]; exact Df).
  destruct (influx_run_app _ _ _ _ _ _ _ E) as (s1 & c1 & p1 & p2 & R1 & R2 & ->). destruct (influx_so_far _ _ _ _ _ _ R1) as (b1 & A1 & E1).
  cbn [app i_run] in R2. destruct (i_flush show_f show_n tags s1 c1 ans) as [| |s2 c2 pf] eqn:Ef; try discriminate. destruct (run os3 s2 c2) as [[[s3 c3] p3]|] eqn:R3; [|discriminate]. injection R2 as <- <- <-.
  assert (Rf : run [IFlush ans] s1 c1 = Some (s2, c2, [pf])) by (cbn; rewrite Ef; reflexivity).
  destruct (influx_so_far _ _ _ _ _ _ Rf) as (bf & Af & Ef2). destruct (influx_so_far _ _ _ _ _ _ R3) as (b3 & A3 & E3).
  exists (b1 ++ bf ++ b3), (List.concat b3). split.
  - unfold influx_answers. rewrite flat_map_app. apply all3_app; [exact A1|]. change (pf :: p3) with ([pf] ++ p3). rewrite flat_map_app. apply all3_app; [exact Af|exact A3].
  - assert (E0 : i_aggrs s2 = []) by (destruct (C58_posted_until_accepted Q show_f show_n Hsh tags s1 c1 ans s2 c2 pf Ef) as (? & ? & ? & _ & _ & _ & _ & H); exact H).
    rewrite E0, app_nil_r in Ef2. cbn in Ef2. rewrite app_nil_r in Ef2. rewrite !concat_app, <- Ef2, app_assoc, <- E1. cbn. rewrite (influx_points_calls _ _ D1). reflexivity.
Qed.
End Influx.

(** ** elasticsearch *)
Section Elastic.
Variable render : Z -> option (string * string).
Variable uuid_str : N -> string.
Notation run := (es_run render uuid_str).
Lemma es_run_split os1 : forall os2 e e' log, run e (os1 ++ os2) = Some (e', log) ->
  exists e1 l1 l2, run e os1 = Some (e1, l1) /\ run e1 os2 = Some (e', l2) /\ log = l1 ++ l2.
Proof.
  induction os1 as [|o os1 IH]; intros os2 e e' log E; [exists e, [], log; auto|]. cbn [app es_run] in E |- *. destruct o as [u l|a]; [exact (IH _ _ _ _ E)|].
  destruct (es_flush render uuid_str e a) as [[e1 req]|] eqn:Ef; [|discriminate]. destruct (run e1 (os1 ++ os2)) as [[e2 reqs]|] eqn:Er; [|discriminate]. injection E as <- <-.
  destruct (IH _ _ _ _ Er) as (e3 & l1 & l2 & E1 & E2 & ->). rewrite E1. exists e3. destruct req as [b|]; eexists _, _; (split; [reflexivity|]); (split; [exact E2|]); reflexivity.
Qed.
Definition same_es (e e' : es) : Prop := es_limit e' = es_limit e /\ es_prefix e' = es_prefix e /\ es_type e' = es_type e /\ es_tags e' = es_tags e.
Lemma items_same its : forall e e', es_items e its = Some e' -> same_es e e'.
Proof.
  induction its as [|it its IH]; intros e e' E; cbn in E; [injection E as <-; repeat split|]. destruct (es_item e it) as [e1|] eqn:E1; [|discriminate].
  assert (S1 : same_es e e1).
  { unfold es_item in E1. destruct (fst it); [|discriminate]. destruct (Nat.ltb _ _); [|discriminate]. destruct (snd it); [injection E1 as <-; repeat split|].
    destruct (nth_error _ _); [|discriminate]. injection E1 as <-. repeat split. }
  destruct (IH _ _ E) as (A & B & C & D). destruct S1 as (A1 & B1 & C1 & D1). repeat split; congruence.
Qed.
Lemma run_same os : forall e e' log, run e os = Some (e', log) -> same_es e e'.
Proof.
  induction os as [|o os IH]; intros e e' log E; cbn [es_run] in E; [injection E as <- <-; repeat split|]. destruct o as [u l|a]; [exact (IH _ _ _ E)|].
  destruct (es_flush render uuid_str e a) as [[e1 req]|] eqn:Ef; [|discriminate]. destruct (run e1 os) as [[e2 reqs]|] eqn:Er; [|discriminate]. injection E as <- <-.
  assert (S1 : same_es e e1).
  { unfold es_flush in Ef. destruct (es_buffer e); [injection Ef as <- <-; repeat split|]. destruct (es_body _ _ _ _); [|discriminate]. destruct a as [| |its]; [injection Ef as <- <-; repeat split..|].
    destruct (es_items _ its) as [e3|] eqn:Ei; [|discriminate]. injection Ef as <- <-. exact (items_same _ _ _ Ei). }
  destruct (IH _ _ _ Er) as (A & B & C & D). destruct S1 as (A1 & B1 & C1 & D1). repeat split; congruence.
Qed.
Lemma quiet_es cs : forall os e e' log, Forall (fun c => flushing c = false) cs -> does_all elastic_does cs os -> run e os = Some (e', log) ->
  log = [] /\ exists more, es_buffer e' = es_buffer e ++ more.
Proof.
  induction cs as [|c cs IH]; intros os e e' log F D E; [destruct D as (ps & Fp & ->); inversion Fp; subst; injection E as <- <-; split; [reflexivity|]; exists []; symmetry; apply app_nil_r|].
  apply does_cons in D as (os1 & os2 & D1 & D2 & ->). inversion F as [|? ? Fc Fs]; subst. destruct c as [ev| | |]; try discriminate.
  destruct ev as [t|l|r| |]; cbn in D1; try (destruct D1 as (u & ->)); subst; try exact (IH _ _ _ _ Fs D2 E).
  cbn [app es_run] in E. destruct (IH _ _ _ _ Fs D2 E) as (-> & more & Eb). split; [reflexivity|]. cbn [es_deliver es_buffer] in Eb. rewrite <- app_assoc in Eb. eauto.
Qed.
Lemma body_In e ms body m : es_body render uuid_str e ms = Some body -> In m ms -> exists a, In a body /\ es_action render uuid_str e m = Some a.
Proof.
  revert body. induction ms as [|m0 ms IH]; intros body E Hm; [destruct Hm|]. cbn in E. destruct (es_action render uuid_str e m0) as [a|] eqn:Ea; [|discriminate].
  destruct (es_body render uuid_str e ms) as [b|] eqn:Eb; [|discriminate]. injection E as <-. destruct Hm as [->|Hm]; [exists a; split; [left; reflexivity|exact Ea]|].
  destruct (IH _ Logic.eq_refl Hm) as (a' & H1 & H2). exists a'. split; [right; exact H1|exact H2].
Qed.
Lemma elastic_flushed limit prefix ty tags cs l : flushed_after (ELog l) cs -> line_ok l -> tm_ok tags -> elastic_offers render uuid_str limit prefix ty tags cs l.
Proof.
  intros Fa Hl Ht os e log D E. apply first_flush in Fa as (c1 & c2 & f & c3 & -> & Hf & Fq).
  apply does_app in D as (o1 & o2 & D1 & D2 & ->). apply does_cons in D2 as (od & o3 & Dd & D3 & ->). cbn in Dd. destruct Dd as (u & ->).
  apply does_app in D3 as (o4 & o5 & D4 & D5 & ->). apply does_cons in D5 as (of & o6 & Df & D6 & ->).
  assert (exists a, of = [ESFlush a]) as (a & ->) by (destruct f; [discriminate|..]; exact Df).
  destruct (es_run_split _ _ _ _ _ E) as (e1 & l1 & l2 & R1 & R2 & ->). cbn [app es_run] in R2. destruct (es_run_split _ _ _ _ _ R2) as (e2 & l3 & l4 & R3 & R4 & ->).
  destruct (quiet_es _ _ _ _ _ Fq D4 R3) as (-> & more & Eb). cbn [es_deliver es_buffer] in Eb. cbn [app es_run] in R4 |- *.
  destruct (es_flush render uuid_str e2 a) as [[e3 req]|] eqn:Ef; [|discriminate]. destruct (run e3 o6) as [[e4 reqs]|] eqn:R5; [|discriminate]. injection R4 as <- <-.
  assert (Hin : In (mkEline 0 u l) (es_buffer e2)) by (rewrite Eb; apply in_or_app; left; apply in_or_app; right; left; reflexivity).
  pose proof (run_same _ _ _ _ R1) as (S1 & S2 & S3 & S4). pose proof (run_same _ _ _ _ R3) as (T1 & T2 & T3 & T4). cbn [es_deliver es_limit es_prefix es_type es_tags] in *.
  assert (exists body, req = Some body /\ es_body render uuid_str e2 (es_buffer e2) = Some body) as (body & -> & Ebody).
  { unfold es_flush in Ef. destruct (es_buffer e2) as [|m0 ms] eqn:Eb2; [destruct Hin|]. rewrite <- Eb2 in *. destruct (es_body render uuid_str e2 (es_buffer e2)) as [b|]; [|discriminate].
    exists b. split; [|reflexivity]. destruct a as [| |its]; [congruence|congruence|]. destruct (es_items _ its); congruence. }
  destruct (body_In _ _ _ _ Ebody Hin) as (act & Ha & Ea). destruct (C63_document render uuid_str e2 (mkEline 0 u l) act Hl ltac:(rewrite T4, S4; exact Ht) Ea) as (day & full & H1 & H2 & H3 & H4 & H5).
  exists u, body, a, act, day, full. split; [unfold es_deliveries; rewrite flat_map_app; apply in_or_app; right; left; reflexivity|].
  split; [apply in_or_app; right; left; reflexivity|]. split; [exact Ha|]. split; [exact H2|]. rewrite T3, S3 in H3. split; [exact H3|]. split; [exact H1|].
  rewrite T2, S2 in H4. split; [exact H4|]. intros k. rewrite H5, T4, S4. reflexivity.
Qed.
End Elastic.

(** ** wavefront *)
Section Wave.
Variable hkind : list string -> method -> N.
Variable hfun : list string -> N.
Variable show_f : f64 -> string.
Variable show_n : N -> string.
Variable show_z : Z -> string.
Variable c : wcfg.
Hypothesis Hsame : forall a b, feqb a b = true -> show_f a = show_f b.
Hypothesis Hspan : (0 < wc_span c)%Z.
Hypothesis Hage : wc_age c = None.
Notation run := (w_run hkind hfun show_f show_n show_z c).
Notation flush := (w_flush hkind hfun show_f show_n show_z c).

(** the points added since the last reset *)
Definition since (os : list bop) : list telemetry := fold_left (fun acc o => match o with BAdd t => acc ++ [t] | BReset _ => [] end) os [].
Lemma since_adds os ts : since (os ++ map BAdd ts) = since os ++ ts.
Proof.
  unfold since. rewrite fold_left_app. generalize (fold_left (fun acc o => match o with BAdd t => acc ++ [t] | BReset _ => [] end) os []). intros acc. revert acc.
  induction ts as [|t ts IH]; intros acc; cbn [map fold_left]; [symmetry; apply app_nil_r|]. rewrite IH, <- app_assoc. reflexivity.
Qed.
Lemma epoch w os : Forall (fun t => t_persist t = false) (adds os) -> forall M, run_spec w empty_map os M -> forall s k, M s k = merged (filter (here w s k) (since os)).
Proof.
  induction os as [|o os IH] using rev_ind; intros Hp M R s k; [inversion R; subst; reflexivity|].
  unfold adds in Hp. rewrite flat_map_app in Hp. apply Forall_app in Hp as [Hp1 Hp2]. apply run_spec_app in R as (M1 & R1 & R2). specialize (IH Hp1 M1 R1).
  destruct o as [t|now].
  - change [BAdd t] with (map BAdd [t]) in *. rewrite since_adds. apply (plain_run w [t] (since os) M1 M); [exact IH|cbn in Hp2; exact Hp2|exact R2].
  - inversion R2 as [|? ? M2 ? ? Ho Hr]; subst. inversion Hr; subst. replace (since (os ++ [BReset now])) with (@nil telemetry) by (unfold since; rewrite fold_left_app; reflexivity). cbn [filter merged].
    destruct (M s k) as [p|] eqn:E; [|reflexivity]. apply Ho in E as (_ & k0 & p0 & [Hk0 _] & E & _).
    rewrite (plain_points hfun w os empty_map M1 Hp1) with (s := s) (k := k0) (p := p0) in E; [discriminate|intros ? ? ? [=]|exact R1|exact Hk0].
Qed.
Lemma add_here w M t M' : add_spec w M t M' -> exists p, M' (series_key t) (pbin w t) = Some p.
Proof. intros [p _ [H _]|k p _ _ _ _ _ [H _]|_ _ [H _]]; eauto. Qed.
Lemma adds_keep w ts : forall M M' s k p, run_spec w M (map BAdd ts) M' -> M s k = Some p -> exists p', M' s k = Some p'.
Proof.
  induction ts as [|t ts IH]; intros M M' s k p R E; inversion R as [|? ? M1 ? ? Ho Hr]; subst; [eauto|]. cbn in Ho.
  assert (exists p1, M1 s k = Some p1) as (p1 & E1).
  { assert (Hd : (s = series_key t /\ k = pbin w t) \/ (s <> series_key t \/ k <> pbin w t)).
    { destruct (list_eq_dec string_dec s (series_key t)); [|tauto]. destruct (Z.eq_dec k (pbin w t)); tauto. }
    destruct Hd as [[-> ->]|Hd]; [exact (add_here _ _ _ _ Ho)|]. destruct Ho as [p0 _ [_ H]|k0 p0 _ _ _ _ _ [_ H]|_ _ [_ H]]; rewrite H by exact Hd; eauto. }
  exact (IH _ _ _ _ _ Hr E1).
Qed.

Definition wave_bops (os : list wop) : list bop := flat_map (fun o => match o with WDeliver _ t => [BAdd t] | WFlush _ now now' _ => [BReset now; BReset now'] end) os.
Lemma wave_bops_adds os : adds (wave_bops os) = wave_points os.
Proof. induction os as [|[now t|f n n' a] os IH]; cbn; [reflexivity|f_equal|]; exact IH. Qed.
Lemma w_run_app os1 : forall os2 w0 w logs, run (os1 ++ os2) w0 = Some (w, logs) -> exists w1 l1 l2, run os1 w0 = Some (w1, l1) /\ run os2 w1 = Some (w, l2) /\ logs = l1 ++ l2.
Proof.
  induction os1 as [|o os1 IH]; intros os2 w0 w logs E; [exists w0, [], logs; auto|]. cbn [app w_run] in E |- *. destruct o as [now t|fuel now now' ans].
  - destruct (w_deliver hfun c now t w0) as [w1|]; [|discriminate]. exact (IH _ _ _ _ E).
  - destruct (flush fuel now now' ans w0) as [[w1 l]|]; [|discriminate]. destruct (run (os1 ++ os2) w1) as [[w2 ls]|] eqn:E1; [|discriminate]. injection E as <- <-.
    destruct (IH _ _ _ _ E1) as (w3 & l1 & l2 & -> & H2 & ->). exists w3, (l :: l1), l2. auto.
Qed.
Lemma wave_buckets os : forall w0 w logs, run os w0 = Some (w, logs) -> b_run hfun (w_aggrs w0) (wave_bops os) = Some (w_aggrs w).
Proof.
  induction os as [|o os IH]; intros w0 w logs E; cbn [w_run] in E; [injection E as <- <-; reflexivity|]. destruct o as [now t|fuel now now' ans].
  - unfold w_deliver in E. rewrite Hage in E. cbn. destruct (b_add hfun (w_aggrs w0) t) as [b|]; [|discriminate]. exact (IH _ _ _ E).
  - destruct (flush fuel now now' ans w0) as [[w1 l]|] eqn:Ef; [|discriminate]. destruct (run os w1) as [[w2 ls]|] eqn:E1; [|discriminate]. injection E as <- <-.
    unfold w_flush in Ef. destruct (format_stats hkind hfun show_f show_n show_z c fuel now w0) as [wf|] eqn:Es; [|discriminate].
    destruct (format_text _ _ _ _ Hsame _ _ _ _ _ _ Es) as (_ & _ & _ & _ & _ & _ & Ea & _). apply flush_loop_spec in Ef as (_ & _ & _ & Eb).
    rewrite Ea in Eb. specialize (IH _ _ _ E1). cbn. rewrite <- Eb. exact IH.
Qed.
Lemma quiet_wave cs os : Forall (fun c => flushing c = false) cs -> does_all wave_does cs os -> wave_bops os = map BAdd (wave_points os).
Proof.
  revert os. induction cs as [|x cs IH]; intros os F D; [destruct D as (ps & Fp & ->); inversion Fp; reflexivity|].
  apply does_cons in D as (os1 & os2 & D1 & D2 & ->). inversion F as [|? ? Fc Fs]; subst. specialize (IH _ Fs D2). destruct x as [ev| | |]; try discriminate.
  destruct ev; cbn in D1; try (destruct D1 as (now & ->)); subst; cbn; try exact IH. f_equal. exact IH.
Qed.
Lemma wave_flushed cs t : flushed_after (ETelemetry t) cs -> wave_writes hkind hfun show_f show_n show_z c cs t.
Proof.
  intros Fa os stream w logs D Hn E. apply first_flush in Fa as (c1 & c2 & f & c3 & -> & Hf & Fq).
  apply does_app in D as (o1 & o2 & D1 & D2 & ->). apply does_cons in D2 as (od & o3 & Dd & D3 & ->). cbn in Dd. destruct Dd as (now0 & ->).
  apply does_app in D3 as (o4 & o5 & D4 & D5 & ->). apply does_cons in D5 as (of & o6 & Df & D6 & ->).
  assert (exists fuel now now' ans, of = [WFlush fuel now now' ans]) as (fuel & now & now' & ans & ->) by (destruct f; [discriminate|..]; exact Df).
  rewrite app_assoc in E. rewrite app_assoc in E. set (oq := (o1 ++ [WDeliver now0 t]) ++ o4) in *.
  destruct (w_run_app _ _ _ _ _ E) as (w1 & l1 & l2 & R1 & R2 & ->). cbn [app w_run] in R2.
  destruct (flush fuel now now' ans w1) as [[w2 log]|] eqn:Ef; [|discriminate]. destruct (run o6 w2) as [[w3 l3]|]; [|discriminate]. injection R2 as <- <-.
  destruct (C65_flush_writes_every_point Q hkind hfun show_f show_n show_z c oq stream w1 w2 l1 fuel now now' ans log Hsame ltac:(lia) R1 Ef) as (pads & points & P1 & P2 & P3).
  assert (Ea : wave_points oq = wave_points o1 ++ t :: wave_points o4) by (unfold oq, wave_points; rewrite !flat_map_app, <- app_assoc; reflexivity).
  assert (Hq : incl (wave_points oq) (wave_points (o1 ++ [WDeliver now0 t] ++ o4 ++ [WFlush fuel now now' ans] ++ o6))).
  { rewrite Ea. unfold wave_points. rewrite !flat_map_app. intros x Hx. cbn. apply in_app_or in Hx as [Hx|[Hx|Hx]]; apply in_or_app; [left; exact Hx|right; left; exact Hx|right; right; apply in_or_app; left; exact Hx]. }
  assert (Eb : wave_bops oq = (wave_bops o1 ++ [BAdd t]) ++ map BAdd (wave_points o4)) by (unfold oq, wave_bops; rewrite !flat_map_app; f_equal; exact (quiet_wave _ _ Fq D4)).
  destruct (iter_lists hfun (wc_span c) (wave_bops oq) (w_aggrs w1) Hspan) as (M & RM & LM & _).
  { rewrite wave_bops_adds. intros a b Ha Hb. apply Hn; apply Hq; assumption. }
  { exact (wave_buckets _ _ _ _ R1). }
  assert (exists p, M (series_key t) (pbin (wc_span c) t) = Some p) as (p & Hp).
  { rewrite Eb, <- app_assoc in RM. apply run_spec_app in RM as (M1 & _ & RM). cbn [app] in RM. inversion RM as [|? ? M2 ? ? Ho Hr]; subst. destruct (add_here _ _ _ _ Ho) as (p0 & H0). exact (adds_keep _ _ _ _ _ _ _ Hr H0). }
  pose proof Hp as Hp'. apply LM in Hp' as (Hi & Hs & Hk).
  exists log, now, pads, points, p. split; [apply in_or_app; right; left; reflexivity|]. split; [exact P3|]. split; [exact P2|]. split; [rewrite P1; exact Hi|]. split; [exact Hs|]. split; [exact Hk|].
  intros Hper. rewrite (epoch (wc_span c) (wave_bops oq)) in Hp; [|rewrite wave_bops_adds; rewrite Forall_forall in Hper |- *; auto|exact RM].
  rewrite Eb, since_adds in Hp. change [BAdd t] with (map BAdd [t]) in Hp. rewrite since_adds, <- app_assoc in Hp. cbn [app] in Hp. rewrite filter_app in Hp. cbn [filter] in Hp.
  assert (Ht : here (wc_span c) (series_key t) (pbin (wc_span c) t) t = true) by (unfold here; destruct (list_eq_dec string_dec _ _); [|contradiction]; cbn; apply Z.eqb_refl).
  rewrite Ht in Hp. eexists _, _. split; [exact Hp|]. rewrite <- filter_app. apply Forall_forall. intros q Hqf. apply filter_In in Hqf as [_ Hqf]. unfold here in Hqf.
  destruct (list_eq_dec string_dec _ _) as [E1|]; [|discriminate]. cbn in Hqf. apply Z.eqb_eq in Hqf. auto.
Qed.
End Wave.
End Proofs.
