(** * C157: a counter never goes down from one scrape to the next; C158: and is the exact total of whole counts. *)
From Verif Require Import Base BaseFacts FloatFacts RoundSpec ArithProofs TelemetryModel TelemetrySpec TelemetryProofs TelemetryProps BucketsModel BucketsSpec FlowModel FlowSpec FlowProofs QExample FlowProps PrometheusModel PrometheusSpec PrometheusProofs PrometheusProps
  ScrapeModel ScrapeSpec ScrapeProofs ScrapeProps ScrapedSpec ScrapedProofs ScrapedProps ShownSpec ArriveSpec ArriveProofs CollectSpec CollectProofs CollectProps CountSpec CountProps RiseSpec RiseProofs.
From Coq Require Import Lia Permutation.
Open Scope string_scope. Open Scope list_scope. Open Scope nat_scope.

Lemma step_log (Q : QLib) show_f show_n default age gzip shuffle s m s' : sc_step show_f show_n default age gzip shuffle s m = Some s' -> sc_log s' = sc_log s \/ exists e, sc_log s' = sc_log s ++ [e].
Proof.
  intros E. destruct m; cbn [sc_step] in E;
    repeat match type of E with context [match ?x with _ => _ end] => match x with match _ with _ => _ end => fail 1 | _ => destruct x end end;
    try discriminate; injection E as <-; first [left; reflexivity|right; eexists; reflexivity].
Qed.
Lemma alternates (Q : QLib) show_f show_n cap default age gzip shuffle ms s : sc_run show_f show_n default age gzip shuffle ms (sc_start cap) = Some s ->
  forall l r a l', sc_log s = l ++ EvAnswer r a :: l' -> taken l = closed l ++ [r].
Proof.
  revert s. induction ms as [|m ms IH] using rev_ind; intros s E l r a l' El.
  - injection E as <-. destruct l; discriminate El.
  - pose proof (i_busy _ _ _ _ _ _ _ _ _ (inv_run _ _ _ _ _ _ _ _ _ E)) as B'. rewrite run_snoc in E. destruct (sc_run show_f show_n default age gzip shuffle ms (sc_start cap)) as [s0|] eqn:E0; [|discriminate].
    pose proof (i_busy _ _ _ _ _ _ _ _ _ (inv_run _ _ _ _ _ _ _ _ _ E0)) as B. destruct (step_log _ _ _ _ _ _ _ _ _ _ E) as [L|[e L]]; rewrite L in *; [eapply IH; eauto|].
    destruct l' as [|x l' _] using rev_ind.
    + apply app_inj_tail in El as [El ->]. rewrite El in *. rewrite taken_app, closed_app, app_nil_r in B'. rewrite B, <- app_assoc in B'. apply app_inv_head in B'. cbn [closed flat_map app] in B'.
      rewrite B. f_equal. destruct (sc_server s0); cbn [busy] in B' |- *; try discriminate B'; injection B' as <- _; reflexivity.
    + change (l ++ EvAnswer r a :: l' ++ [x]) with (l ++ (EvAnswer r a :: l') ++ [x]) in El. rewrite app_assoc in El. apply app_inj_tail in El as [El _]. eapply IH; eauto.
Qed.

Lemma summary_count (Q : QLib) cap ops a bs ts p : pa_run ops (pa_new cap) = Some (a, bs) -> pa_reportable a = Some ts -> In p ts -> t_kind p = MSummarize ->
  (exists u, find (fun x => seqb (t_name x) (t_name p)) (inserted ops) = Some u /\ t_kind u = MSummarize) /\
  let n := N.of_nat (List.length (of_metric (t_name p) MSummarize (inserted ops))) in ((n < 2 ^ 64 - 1)%N -> t_count p = n).
Proof.
  intros Ra Er Hi Hk. destruct (reported_from _ _ _ Er Hi) as (x & Hx & Rx). apply in_map_iff in Hx as ((n & x') & E & Hx). cbn in E. subst x'.
  pose proof (run_named _ _ _ _ Ra) as Nm. rewrite Forall_forall in Nm. specialize (Nm _ Hx). cbn in Nm. pose proof (report_name _ _ _ Nm Rx) as Enm. subst n.
  destruct (run_keys _ _ _ _ Ra) as [Nd _]; [constructor|]. apply (In_alookup seqb seqb_eq) in Hx; [|exact Nd].
  assert (L := run_lane_ok cap (t_name p) _ _ _ Ra). rewrite Hx in L. destruct L as [(t0 & F0 & K0) L]. unfold named in F0.
  destruct x as [q|c s k [|s0 r0]]; [|discriminate Rx|].
  - exfalso. injection Rx as ->. destruct L as [L _]. contradiction.
  - split; [exists t0; split; [exact F0|exact K0]|]. destruct L as (_ & Fs & _ & _ & Ek & _). inversion Fs as [|? ? [N0 K1] Fr]; subst.
    destruct (report_win c s (((N.of_nat (List.length (of_metric (t_name p) MSummarize (inserted ops))) - 1) mod 18446744073709551614 + 1)%N) s0 r0) as (p' & Rp & _ & Kp & _ & _ & Cp & _).
    { apply fold_add_kind; [assumption|]. eapply Forall_impl; [|exact Fr]. intros v [_ Hv]. exact Hv. }
    rewrite Rx in Rp. injection Rp as <-. cbv zeta. rewrite Cp. intros Hlt.
    assert (1 <= N.of_nat (List.length (of_metric (t_name p) MSummarize (inserted ops))))%N.
    { apply find_some in F0 as [Hu Hnu]. assert (In t0 (of_metric (t_name p) MSummarize (inserted ops))). { apply filter_In. split; [exact Hu|]. rewrite Hnu, K0. reflexivity. }
      destruct (of_metric (t_name p) MSummarize (inserted ops)); [destruct H|cbn; lia]. }
    rewrite N.mod_small; [lia|]. change (2 ^ 64 - 1)%N with 18446744073709551615%N in Hlt. lia.
Qed.

(** ** C157: the metrics of one answer are in the next, with what came in between added to them *)
Theorem C157_grows : forall (Q : QLib) show_f show_n cap default age gzip shuffle ms s l0 r1 h1 body1 sent1 l1 r2 h2 body2 sent2 l2, (forall n l, Permutation l (shuffle n l)) ->
  sc_run show_f show_n default age gzip shuffle ms (sc_start cap) = Some s -> Forall (tellable age) (ScrapeSpec.told ms) ->
  sc_log s = l0 ++ EvAnswer r1 (A200 h1 body1 sent1) :: l1 ++ EvAnswer r2 (A200 h2 body2 sent2) :: l2 ->
  exists ts1 text1 ts2 text2 first more rest, write_text show_f show_n default ts1 = Some text1 /\ body1 = sent_as gzip text1 /\ write_text show_f show_n default ts2 = Some text2 /\ body2 = sent_as gzip text2 /\
    given age ms = first ++ more ++ rest /\
    (forall p, In p ts1 -> t_kind p <> MSummarize -> exists q, In q ts2 /\ t_name q = t_name p /\ t_kind q = t_kind p /\
      merged (of_metric (t_name p) (t_kind p) first) = Some p /\ merged (of_metric (t_name p) (t_kind p) (first ++ more)) = Some q) /\
    (* a summary, if the later answer still shows it *)
    (forall p q, In p ts1 -> In q ts2 -> t_name q = t_name p -> t_kind p = MSummarize -> t_kind q = MSummarize /\
      ((N.of_nat (List.length (of_metric (t_name p) MSummarize (first ++ more))) < 2 ^ 64 - 1)%N ->
        t_count p = N.of_nat (List.length (of_metric (t_name p) MSummarize first)) /\ t_count q = N.of_nat (List.length (of_metric (t_name p) MSummarize (first ++ more))))).
Proof.
  intros Q show_f show_n cap default age gzip shuffle ms s l0 r1 h1 body1 sent1 l1 r2 h2 body2 sent2 l2 Hp R Tl El.
  pose proof (alternates _ _ _ _ _ _ _ _ _ _ R _ _ _ _ El) as A1. assert (El' := El). change (EvAnswer r1 (A200 h1 body1 sent1) :: l1 ++ EvAnswer r2 (A200 h2 body2 sent2) :: l2) with ((EvAnswer r1 (A200 h1 body1 sent1) :: l1) ++ EvAnswer r2 (A200 h2 body2 sent2) :: l2) in El'.
  rewrite app_assoc in El'. pose proof (alternates _ _ _ _ _ _ _ _ _ _ R _ _ _ _ El') as A2.
  assert (T2 : In (EvTaken r2) l1).
  { change (EvAnswer r1 (A200 h1 body1 sent1) :: l1) with ([EvAnswer r1 (A200 h1 body1 sent1)] ++ l1) in A2. rewrite !taken_app, !closed_app, A1 in A2. change (taken [EvAnswer r1 (A200 h1 body1 sent1)]) with (@nil nat) in A2. change (closed [EvAnswer r1 (A200 h1 body1 sent1)]) with [r1] in A2. rewrite <- !app_assoc in A2. apply app_inv_head in A2. cbn [app] in A2. injection A2 as A2.
    assert (Hr : In r2 (taken l1)) by (rewrite A2; apply in_or_app; right; left; reflexivity). unfold taken in Hr. apply in_flat_map in Hr as (e & He & Hr). destruct e; try destruct Hr as []. subst. exact He. contradiction. }
  destruct (C121_snapshot Q show_f show_n cap default age gzip shuffle _ _ _ _ _ _ _ _ R El) as (a1 & a2 & a3 & ag1 & bs1 & ts1 & text1 & E1 & N2 & N3 & Ra1 & Er1 & Et1 & Eb1 & _).
  destruct (C121_snapshot Q show_f show_n cap default age gzip shuffle _ _ _ _ _ _ _ _ R El') as (b1 & b2 & b3 & ag2 & bs2 & ts2 & text2 & E2 & M2 & M3 & Ra2 & Er2 & Et2 & Eb2 & _).
  destruct (C121_points_kept Q show_f show_n cap default age gzip shuffle _ _ R) as (_ & p' & Ep & _). rewrite in_age_young in Ep by exact Tl.
  assert (N23 : no_taken (b2 ++ b3)) by (unfold no_taken in *; rewrite taken_app, M2, M3; reflexivity).
  change (l0 ++ EvAnswer r1 (A200 h1 body1 sent1) :: l1) with (l0 ++ [EvAnswer r1 (A200 h1 body1 sent1)] ++ l1) in E2. rewrite app_assoc in E2. destruct (last_taken _ _ _ _ _ E2 N23 T2) as (m & -> & Em).
  set (mid := a3 ++ [EvAnswer r1 (A200 h1 body1 sent1)] ++ m ++ b2).
  assert (O2 : ops_of (((l0 ++ [EvAnswer r1 (A200 h1 body1 sent1)]) ++ m) ++ b2) = ops_of (a1 ++ a2) ++ ops_of mid).
  { rewrite E1. unfold mid. rewrite <- !app_assoc. rewrite !ops_app. cbn [app]. change (EvTaken r1 :: a2 ++ ?z) with ([EvTaken r1] ++ a2 ++ z). rewrite !ops_app. change (ops_of [EvTaken r1]) with (@nil pop). rewrite <- ?app_assoc. reflexivity. }
  rewrite O2 in Ra2.
  assert (Gv : exists rest, given age ms = inserted (ops_of (a1 ++ a2)) ++ inserted (ops_of mid) ++ rest).
  { exists (inserted (ops_of (b3 ++ [EvAnswer r2 (A200 h2 body2 sent2)] ++ l2) ++ p')). rewrite <- given_ops, Ep, app_assoc, <- !inserted_app'. f_equal. rewrite <- O2, app_assoc. f_equal. rewrite El', <- ops_app, Em. unfold ops_of. rewrite ?flat_map_app. cbn [flat_map app]. rewrite ?flat_map_app. cbn [flat_map app]. rewrite ?flat_map_app, ?app_nil_r, <- ?app_assoc. cbn [flat_map app]. reflexivity. }
  destruct Gv as [rest Gv]. exists (shuffle r1 ts1), text1, (shuffle r2 ts2), text2, (inserted (ops_of (a1 ++ a2))), (inserted (ops_of mid)), rest.
  split; [exact Et1|]. split; [exact Eb1|]. split; [exact Et2|]. split; [exact Eb2|]. split; [exact Gv|].
  split.
  2: { intros p q Hi Hj En Hk. apply (Permutation_in _ (Permutation_sym (Hp r1 ts1))) in Hi. apply (Permutation_in _ (Permutation_sym (Hp r2 ts2))) in Hj.
       destruct (summary_count _ _ _ _ _ _ _ Ra1 Er1 Hi Hk) as ((u & Fu & Ku) & C1).
       assert (Fi : find (fun x => seqb (t_name x) (t_name q)) (inserted (ops_of (a1 ++ a2) ++ ops_of mid)) = Some u) by (rewrite En, inserted_app'; apply find_prefix; exact Fu).
       assert (Kq : t_kind q = MSummarize).
       { destruct (reported_from _ _ _ Er2 Hj) as (x & Hx & Rx). apply in_map_iff in Hx as ((n & x') & E & Hx). cbn in E. subst x'.
         pose proof (run_named _ _ _ _ Ra2) as Nm. rewrite Forall_forall in Nm. specialize (Nm _ Hx). cbn in Nm. pose proof (report_name _ _ _ Nm Rx) as Enm. subst n.
         destruct (run_keys _ _ _ _ Ra2) as [Nd _]; [constructor|]. apply (In_alookup seqb seqb_eq) in Hx; [|exact Nd].
         assert (L := run_lane_ok cap (t_name q) _ _ _ Ra2). rewrite Hx in L. destruct L as [(t0 & F0 & K0) L]. unfold named in F0. rewrite Fi in F0. injection F0 as <-.
         destruct x as [q'|c sm k [|s0 r0]]; [|discriminate Rx|]; [injection Rx as ->; cbn in K0; congruence|].
         destruct L as (_ & Fs & _). inversion Fs as [|? ? [_ K1] Fr]; subst.
         destruct (report_win c sm k s0 r0) as (t' & Rt & _ & Kt & _); [apply fold_add_kind; [exact K1|]; eapply Forall_impl; [|exact Fr]; intros v [_ Hv]; exact Hv|]. rewrite Rx in Rt. injection Rt as <-. exact Kt. }
       split; [exact Kq|]. intros Few. destruct (summary_count _ _ _ _ _ _ _ Ra2 Er2 Hj Kq) as (_ & C2). rewrite En, inserted_app' in C2. specialize (C2 Few). split; [|exact C2].
       apply C1. unfold of_metric in *. rewrite filter_app, app_length in Few. lia. }
  intros p Hi Hk. apply (Permutation_in _ (Permutation_sym (Hp r1 ts1))) in Hi.
  destruct (reported_from _ _ _ Er1 Hi) as (x & Hx & Rx). apply in_map_iff in Hx as ((n & x') & E & Hx). cbn in E. subst x'.
  pose proof (run_named _ _ _ _ Ra1) as Nm. rewrite Forall_forall in Nm. specialize (Nm _ Hx). cbn in Nm. pose proof (report_name _ _ _ Nm Rx) as Enm. subst n.
  destruct (run_keys _ _ _ _ Ra1) as [Nd _]; [constructor|]. apply (In_alookup seqb seqb_eq) in Hx; [|exact Nd].
  destruct x as [p0|c sm k [|s0 r0]]; [|discriminate Rx|].
  2: { exfalso. pose proof (run_lane_ok cap (t_name p) _ _ _ Ra1) as L. rewrite Hx in L. destruct L as [_ (_ & Fs & _)]. inversion Fs as [|? ? [_ K1] Fr]; subst.
       destruct (report_win c sm k s0 r0) as (t' & Rt & _ & Kt & _); [apply fold_add_kind; [exact K1|]; eapply Forall_impl; [|exact Fr]; intros v [_ Hv]; exact Hv|]. rewrite Rx in Rt. injection Rt as <-. contradiction. }
  injection Rx as ->. destruct (C45_content _ _ _ _ _ _ _ Ra1 Hx) as (_ & Hm & t0 & F0 & K0).
  assert (Fi : find (fun x => seqb (t_name x) (t_name p)) (inserted (ops_of (a1 ++ a2) ++ ops_of mid)) = Some t0) by (rewrite inserted_app'; apply find_prefix; exact F0).
  pose proof (run_lane_ok cap (t_name p) _ _ _ Ra2) as L. destruct (alookup seqb (t_name p) (pa_data ag2)) as [y|] eqn:Ely.
  2: { exfalso. unfold lane_ok in L. pose proof (find_named_none _ _ L) as N. unfold named in N. rewrite N in Fi. discriminate. }
  destruct y as [q|c sm k samples].
  - destruct (C45_content _ _ _ _ _ _ _ Ra2 Ely) as (Hn & Hm2 & t1 & F1 & K1). rewrite Fi in F1. injection F1 as <-. exists q. split; [|split; [exact Hn|split; [congruence|split; [exact Hm|]]]].
    + eapply Permutation_in; [apply Hp|]. eapply (reported_in _ (APerp q)); [exact Er2| |reflexivity]. apply in_map_iff. exists (t_name p, APerp q). split; [reflexivity|]. apply alookup_in'. exact Ely.
    + rewrite <- inserted_app', <- K0, K1. exact Hm2.
  - exfalso. destruct L as [(t1 & F1 & K1) _]. unfold named in F1. rewrite Fi in F1. injection F1 as <-. cbn in K1. congruence.
Qed.
(** A counter that is only ever given amounts does not go down. *)
Lemma merged_amounts (Q : QLib) l p : merged l = Some p -> Forall (fun u => exists v, t_sum u = Some v /\ amount v) l ->
  exists v vs, Forall2 (fun u x => t_sum u = Some x) l (v :: vs) /\ Forall amount (v :: vs) /\ t_sum p = Some (fold_left fadd vs v).
Proof.
  intros M F. destruct l as [|u l]; [discriminate|]. injection M as <-. inversion F as [|? ? (v & Sv & Av) Fl]; subst.
  assert (G : exists vs, Forall2 (fun u x => t_sum u = Some x) l vs /\ Forall amount vs).
  { clear - Fl. induction Fl as [|u l (v & S & A) _ (vs & I1 & I2)]; [exists []; split; constructor|]. exists (v :: vs). split; constructor; assumption. }
  destruct G as (vs & G1 & G2). exists v, vs. split; [constructor; assumption|]. split; [constructor; assumption|]. exact (C06_merge_sum_fold Q l u v vs Sv G1).
Qed.
Theorem C157_rises : forall (Q : QLib) show_f show_n cap default age gzip shuffle ms s l0 r1 h1 body1 sent1 l1 r2 h2 body2 sent2 l2, (forall n l, Permutation l (shuffle n l)) ->
  sc_run show_f show_n default age gzip shuffle ms (sc_start cap) = Some s -> Forall (tellable age) (ScrapeSpec.told ms) ->
  sc_log s = l0 ++ EvAnswer r1 (A200 h1 body1 sent1) :: l1 ++ EvAnswer r2 (A200 h2 body2 sent2) :: l2 ->
  exists ts1 text1 ts2 text2, write_text show_f show_n default ts1 = Some text1 /\ body1 = sent_as gzip text1 /\ write_text show_f show_n default ts2 = Some text2 /\ body2 = sent_as gzip text2 /\
    forall p, In p ts1 -> t_kind p = MSum -> (forall u, In u (given age ms) -> t_name u = t_name p -> t_kind u = MSum -> exists v, t_sum u = Some v /\ amount v) ->
      exists q x y, In q ts2 /\ t_name q = t_name p /\ t_kind q = MSum /\ t_sum p = Some x /\ t_sum q = Some y /\ fleb x y = true.
Proof.
  intros Q show_f show_n cap default age gzip shuffle ms s l0 r1 h1 body1 sent1 l1 r2 h2 body2 sent2 l2 Hp R Tl El.
  destruct (C157_grows Q show_f show_n cap default age gzip shuffle ms s l0 r1 h1 body1 sent1 l1 r2 h2 body2 sent2 l2 Hp R Tl El) as (ts1 & text1 & ts2 & text2 & first & more & rest & W1 & B1 & W2 & B2 & Gv & H & _).
  exists ts1, text1, ts2, text2. split; [exact W1|]. split; [exact B1|]. split; [exact W2|]. split; [exact B2|]. intros p Hi Kp Am.
  destruct (H p Hi) as (q & Hq & Nq & Kq & M1 & M2); [rewrite Kp; discriminate|]. rewrite Kp in *.
  assert (F : Forall (fun u => exists v, t_sum u = Some v /\ amount v) (of_metric (t_name p) MSum (first ++ more))).
  { apply Forall_forall. intros u Hu. apply filter_In in Hu as [Hu E]. apply andb_prop in E as [E1 E2]. apply seqb_eq in E1. apply Am; [rewrite Gv, app_assoc; apply in_or_app; left; exact Hu|exact E1|]. destruct (t_kind u); try discriminate E2; reflexivity. }
  unfold of_metric in *. rewrite filter_app in F, M2. apply Forall_app in F as [F1 F2].
  destruct (filter (fun t => seqb (t_name t) (t_name p) && meth_eqb (t_kind t) MSum)%bool first) as [|u l] eqn:Ef; [discriminate M1|].
  destruct (merged_amounts Q _ _ M1 F1) as (v & vs & G1 & G2 & G3).
  assert (G : exists ws, Forall2 (fun u x => t_sum u = Some x) (filter (fun t => seqb (t_name t) (t_name p) && meth_eqb (t_kind t) MSum)%bool more) ws /\ Forall amount ws).
  { clear - F2. induction F2 as [|u l (x & S & A) _ (xs & I1 & I2)]; [exists []; split; constructor|]. exists (x :: xs). split; constructor; assumption. }
  destruct G as (ws & G4 & G5). injection M1 as M1. injection M2 as M2. rewrite fold_left_app, M1 in M2. pose proof (C06_merge_sum_fold Q _ _ _ _ G3 G4) as S2. rewrite M2 in S2.
  exists q, (fold_left fadd vs v), (fold_left fadd ws (fold_left fadd vs v)). repeat (split; [assumption|]).
  inversion G2 as [|? ? Av Avs]; subst. apply fold_rises; [apply fold_rises; assumption|exact G5].
Qed.
(** The samples of a histogram: all its buckets together, which is its last line and its count, hold as many as all its points so far. *)
Theorem C157_histograms : forall (Q : QLib) show_f show_n cap default age gzip shuffle ms s l0 r1 h1 body1 sent1 l1 r2 h2 body2 sent2 l2, (forall n l, Permutation l (shuffle n l)) ->
  sc_run show_f show_n default age gzip shuffle ms (sc_start cap) = Some s -> Forall (tellable age) (ScrapeSpec.told ms) ->
  sc_log s = l0 ++ EvAnswer r1 (A200 h1 body1 sent1) :: l1 ++ EvAnswer r2 (A200 h2 body2 sent2) :: l2 ->
  exists ts1 text1 ts2 text2 first more rest, write_text show_f show_n default ts1 = Some text1 /\ body1 = sent_as gzip text1 /\ write_text show_f show_n default ts2 = Some text2 /\ body2 = sent_as gzip text2 /\
    given age ms = first ++ more ++ rest /\
    forall p, In p ts1 -> t_kind p = MHistogram -> exists q bins bins', In q ts2 /\ t_name q = t_name p /\ t_bins p = Some bins /\ t_bins q = Some bins' /\
      sumN (map snd bins) = samples_in (of_metric (t_name p) MHistogram first) /\ sumN (map snd bins') = (sumN (map snd bins) + samples_in (of_metric (t_name p) MHistogram more))%N.
Proof.
  intros Q show_f show_n cap default age gzip shuffle ms s l0 r1 h1 body1 sent1 l1 r2 h2 body2 sent2 l2 Hp R Tl El.
  destruct (C157_grows Q show_f show_n cap default age gzip shuffle ms s l0 r1 h1 body1 sent1 l1 r2 h2 body2 sent2 l2 Hp R Tl El) as (ts1 & text1 & ts2 & text2 & first & more & rest & W1 & B1 & W2 & B2 & Gv & H & _).
  exists ts1, text1, ts2, text2, first, more, rest. do 5 (split; [assumption|]). intros p Hi Kp.
  destruct (H p Hi) as (q & Hq & Nq & Kq & M1 & M2); [rewrite Kp; discriminate|]. rewrite Kp in *.
  assert (Ks : forall l, Forall (fun u => t_kind u = MHistogram) (of_metric (t_name p) MHistogram l)).
  { intros l. apply Forall_forall. intros u Hu. apply filter_In in Hu as [_ E]. apply andb_prop in E as [_ E]. destruct (t_kind u); try discriminate E; reflexivity. }
  assert (G : forall l u, merged l = Some u -> Forall (fun u => t_kind u = MHistogram) l -> value_count (t_value u) = samples_in l).
  { clear. intros l u M F. destruct l as [|v l]; [discriminate|]. injection M as <-. inversion F; subst. rewrite (C06_merge_samples_count Q MHistogram l v (or_intror Logic.eq_refl)) by assumption. reflexivity. }
  assert (B : forall u, t_kind u = MHistogram -> exists bins, t_bins u = Some bins /\ sumN (map snd bins) = value_count (t_value u)).
  { clear. intros u K. unfold t_kind, t_bins in *. destruct (t_value u); try discriminate K. eexists. split; [reflexivity|]. apply h_bins_total. }
  destruct (B p Kp) as (bins & Bp & Sp). destruct (B q Kq) as (bins' & Bq & Sq). exists q, bins, bins'. do 4 (split; [assumption|]). rewrite Sp, Sq, (G _ _ M1 (Ks _)), (G _ _ M2 (Ks _)). split; [reflexivity|].
  unfold of_metric, samples_in. rewrite filter_app, map_app. induction (map (fun u => value_count (t_value u)) _) as [|a l IH]; [reflexivity|]. unfold sumN in *. cbn. rewrite IH. apply N.add_assoc.
Qed.
(** ** C158: whole counts show as their exact total *)
Theorem C158_exact : forall (Q : QLib) cap show_f show_n default age shuffle cs t zs, (forall n l, Permutation l (shuffle n l)) ->
  (forall x, token (show_f x)) -> (forall n, token (show_n n)) -> NoDup (map fst default) -> Forall tag_fit default ->
  In (CDeliver (ETelemetry t)) cs -> t_kind t = MSum ->
  forall ms ms' r body, does_all prom_does cs (ScrapeSpec.told ms) -> in_reach age ms ms' t -> kind_fits age ms t -> asked_after cap show_f show_n default age None shuffle ms ms' r body ->
  Forall point_fit (given age (ms ++ ms')) ->
  (forall u v, In u (given age (ms ++ ms')) -> In v (given age (ms ++ ms')) -> sanitize (t_name u) = sanitize (t_name v) -> t_name u = t_name v) ->
  (* all that is ever taken of the counter are whole counts, with room for them *)
  Forall2 (fun u z => t_sum u = Some (fofZ z)) (of_metric (t_name t) MSum (given age (ms ++ ms'))) zs -> countable zs ->
  exists zs1 zs2 labels before after, zs = zs1 ++ zs2 /\ List.length (of_metric (t_name t) MSum (given age ms)) <= List.length zs1 /\
    scrape_text body = Some (before ++ [SType (sanitize (t_name t)) "counter"; SSample (sanitize (t_name t)) labels (show_f (fofZ (CountSpec.total zs1)))] ++ after).
Proof.
  intros Q cap show_f show_n default age shuffle cs t zs Hp Hf Hn Hd1 Hd2 Hin Hk ms ms' r body D Hr Kf A Fit Inj Z C.
  assert (Hk' : t_kind t <> MSummarize) by (rewrite Hk; discriminate).
  destruct (C149_read_partial Q cap show_f show_n default age shuffle cs t Hp Hf Hn Hd1 Hd2 Hin Hk' ms ms' r body D Hr Kf A Fit Inj) as (p & more & rest & block & before & after & Em & Hm & Ht & Ex & Rd).
  rewrite Hk in Hm. rewrite given_app, Em, app_assoc in Z. unfold of_metric in *. rewrite filter_app in Z. apply Forall2_app_inv_l in Z as (zs1 & zs2 & Z1 & Z2 & ->).
  exists zs1, zs2. assert (Ln : List.length (filter (fun t0 => seqb (t_name t0) (t_name t) && meth_eqb (t_kind t0) MSum)%bool (given age ms ++ more)) = List.length zs1) by (clear - Z1; induction Z1; cbn; congruence). rewrite filter_app, app_length in Ln.
  assert (C1 : countable zs1). { clear - C. unfold countable in *. rewrite map_app in C. unfold CountSpec.total in *. rewrite fold_right_app in C. assert (P : (0 <= fold_right Z.add 0 (map Z.abs zs2))%Z) by (clear; induction zs2; cbn; lia).
    assert (G : forall l a, (0 <= a -> fold_right Z.add 0 l <= fold_right Z.add a l)%Z) by (clear; induction l as [|x l IH]; intros a H; cbn; [lia|specialize (IH a H); lia]). specialize (G (map Z.abs zs1) _ P). lia. }
  destruct (filter (fun t0 => seqb (t_name t0) (t_name t) && meth_eqb (t_kind t0) MSum)%bool (given age ms ++ more)) as [|u l] eqn:Ef; [discriminate Hm|]. injection Hm as Hm. inversion Z1 as [|? z ? zs' Hu Hl]; subst.
  pose proof (C153_merged Q u l z zs' C1 Hu Hl) as S.
  assert (Kp : t_kind (fold_left t_add l u) = MSum /\ t_name (fold_left t_add l u) = t_name t).
  { assert (I : In u (filter (fun t0 => seqb (t_name t0) (t_name t) && meth_eqb (t_kind t0) MSum)%bool (given age ms ++ more))) by (rewrite Ef; left; reflexivity). apply filter_In in I. destruct I as [_ I]. apply andb_prop in I as [I1 I2]. apply seqb_eq in I1. split; [|rewrite fold_add_name; exact I1].
    unfold t_kind, t_sum in *. destruct (t_value (fold_left t_add l u)); try discriminate S; reflexivity. }
  destruct Kp as [Kp Np]. inversion Ex as [v Kv Sv E|v Kv|? ? ? Kv|? ? Kv]; try congruence. rewrite S in Sv. injection Sv as <-. rewrite <- E in Rd. rewrite Np in Rd. cbn [map seen_line] in Rd.
  do 3 eexists. split; [reflexivity|]. split; [lia|exact Rd].
Qed.
(** two scrapes, a point before each *)
Definition xtwice : list (@smove xQ) := xtold (SDeliver 5 (xsum1 "a")) ++ xasked 7 ++ xgot ++ xtold (SDeliver 8 (xsum1 "a")) ++ xasked 8 ++ xgot.
Example C157_ex : let h := [("Content-Type", "text/plain; version=0.0.4")] in
  option_map sc_log (@sc_run xQ (fun _ => "1") (fun _ => "n") [] None None (fun _ l => l) xtwice (sc_start 10)) =
    Some ([EvApplied (PInsert (xsum1 "a")); EvTaken 7] ++ EvAnswer 7 (A200 h xbody true) :: [EvApplied (PInsert (xsum1 "a")); EvTaken 8] ++ EvAnswer 8 (A200 h xbody true) :: []) /\
  Forall (tellable None) (ScrapeSpec.told xtwice) /\ given None xtwice = [xsum1 "a"] ++ [xsum1 "a"] ++ [] /\ t_kind (xsum1 "a") = MSum /\ t_sum (xsum1 "a") = Some fone /\ amount fone /\
  fleb fone (fadd fone fone) = true.
Proof. cbv zeta. split; [reflexivity|]. split; [apply Forall_forall; intros []; exact (fun _ => Logic.I)|]. split; [reflexivity|]. split; [reflexivity|]. split; [reflexivity|]. split; [split; reflexivity|reflexivity]. Qed.
(** a histogram of seven samples, twice *)
Example C157_ex_histogram : t_kind xhist_t = MHistogram /\ samples_in (of_metric "h" MHistogram [xhist_t; xsum1 "h"; xhist_t]) = 14%N /\
  option_map (fun p => option_map (fun b => sumN (map snd b)) (t_bins p)) (merged (of_metric "h" MHistogram [xhist_t; xsum1 "h"; xhist_t])) = Some (Some 14%N).
Proof. split; [reflexivity|]. split; reflexivity. Qed.
(** of the four points of C149_ex three are counted when the request is answered *)
Example C158_ex : Forall2 (fun u z => t_sum u = Some (fofZ z)) (of_metric "a" MSum (given None (xms ++ xms'))) [1; 1; 1; 1]%Z /\ countable [1; 1; 1; 1]%Z /\ CountSpec.total [1; 1; 1]%Z = 3%Z /\ List.length (of_metric "a" MSum (given None xms)) = 2.
Proof.
  assert (E : of_metric "a" MSum (given None (xms ++ xms')) = [xsum1 "a"; xsum1 "a"; xsum1 "a"; xsum1 "a"]) by reflexivity. assert (S : t_sum (xsum1 "a") = Some (fofZ 1)) by reflexivity.
  split; [rewrite E; repeat (constructor; [exact S|]); constructor|]. split; [unfold countable; discriminate|]. split; reflexivity.
Qed.
Print Assumptions C157_grows.
Print Assumptions C157_rises.
Print Assumptions C157_histograms.
Print Assumptions C158_exact.
