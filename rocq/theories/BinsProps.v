(** * Property C144: what the randomized tests of the aggregation buffer check, for all points. *)
From Verif Require Import Base BaseFacts TelemetryModel TelemetryProofs BucketsModel BucketsSpec BucketsProofs QExample TelemetryProps BucketsProps BinsSpec BinsProofs.
From Coq Require Import Lia.
Open Scope string_scope. Open Scope list_scope.

Lemma adds_BAdd `{Q : QLib} ts : adds (map BAdd ts) = ts.
Proof. unfold adds. induction ts; cbn; congruence. Qed.
Lemma adds_app `{Q : QLib} os os' : adds (os ++ os') = adds os ++ adds os'.
Proof. apply flat_map_app. Qed.

Section Lift.
Context `{Q : QLib}.
Variables (hfun : list string -> N) (w : Z).
Hypothesis Hw : (0 < w)%Z.
Lemma ran os b : no_collision hfun (adds os) -> b_run hfun (b_new w) os = Some b ->
  Inv hfun w (occurs (adds os)) b /\ exists M, run_spec w empty_map os M /\ represents w (b_iter b) M.
Proof.
  intros Hn Hr.
  destruct (run_refines hfun w Hw (occurs (adds os)) (occurs_inj hfun (adds os) Hn) os (b_new w) empty_map)
    as (b' & M & H1 & H0 & H2 & H3); auto using empty_represents, occurs_self.
  - apply Inv_new.
  - assert (b' = b) by congruence. subst. eauto.
Qed.
Lemma nodup_cells os b : no_collision hfun (adds os) -> b_run hfun (b_new w) os = Some b -> NoDup (map (cell w) (b_iter b)).
Proof.
  intros Hn Hr. destruct (ran os b Hn Hr) as (HI & _). apply iter_sorted in HI. revert HI. generalize (b_iter b). clear.
  induction l as [|p l IH]; intros H; [constructor|]. inversion H as [|? ? H1 H2]; subst. cbn. constructor; [|apply IH; exact H1].
  intros Hin. apply in_map_iff in Hin as (q & E & Hq). rewrite Forall_forall in H2. specialize (H2 q Hq). unfold plt, name_tag_hash in H2.
  assert (E1 : series_key q = series_key p) by (unfold cell in E; congruence). assert (E2 : pbin w q = pbin w p) by (unfold cell in E; congruence). rewrite E1 in H2. unfold pbin in *. lia.
Qed.
End Lift.

(** ** C144: one point per series and bin that occurs; the count is their number. *)
Theorem C144_cells : forall (Q : QLib) (hfun : list string -> N) (w : Z) (ts : list telemetry),
  (0 < w)%Z -> no_collision hfun ts ->
  exists b, b_run hfun (b_new w) (map BAdd ts) = Some b /\
    (forall s k, In (s, k) (map (cell w) (b_iter b)) <-> exists t, In t ts /\ series_key t = s /\ pbin w t = k) /\
    (forall n, In n (map t_name (b_iter b)) <-> In n (map t_name ts)) /\
    b_count b = N.min (N.of_nat (List.length (cells w ts))) (2 ^ 64 - 1).
Proof.
  intros Q hfun w ts Hw Hn. destruct (C02_count_is_number_of_points Q hfun w (map BAdd ts)) as (b & Hr & Hc & _); [lia|].
  exists b. split; [exact Hr|]. assert (Hn' : no_collision hfun (adds (map BAdd ts))) by (rewrite adds_BAdd; exact Hn).
  destruct (ran hfun w Hw _ b Hn' Hr) as (HI & M & HM & HR).
  assert (A : forall s k, In (s, k) (map (cell w) (b_iter b)) <-> exists t, In t ts /\ series_key t = s /\ pbin w t = k).
  { intros s k. assert (X := adds_cell w ts empty_map M s k HM). destruct (filter_here_some w ts s k) as (F1 & F2).
    split.
    - intros H. apply in_map_iff in H as (p & E & Hp). assert (E' : M s k = Some p) by (apply HR; unfold cell in E; repeat split; [exact Hp|congruence|congruence]).
      destruct (final (filter (here w s k) ts)) as [t|] eqn:Ef; [|cbv in X; congruence]. destruct F1 as (t' & H1 & H2); [eauto|]. exists t'. unfold cell in H2. split; [exact H1|]. split; congruence.
    - intros (t & H1 & H2 & H3). destruct F2 as (t' & Ef). { exists t. split; [exact H1|]. unfold cell. congruence. }
      rewrite Ef in X. destruct X as (p & X & _). apply HR in X as (X1 & X2 & X3). apply in_map_iff. exists p. split; [unfold cell; congruence|exact X1]. }
  split; [exact A|]. split.
  - intros n. rewrite !in_map_iff. split.
    + intros (p & <- & Hp). destruct (proj1 (A (series_key p) (pbin w p))) as (t & H1 & H2 & _); [apply (in_map (cell w)) in Hp; exact Hp|]. exists t. split; [|exact H1]. unfold series_key in H2. congruence.
    + intros (t & <- & Ht). assert (X := proj2 (A (series_key t) (pbin w t)) ltac:(eauto)). apply in_map_iff in X as (p & E & Hp). exists p. split; [|exact Hp]. unfold cell, series_key in E. congruence.
  - rewrite Hc. do 2 f_equal. rewrite <- (map_length (cell w) (b_iter b)). apply Permutation.Permutation_length. apply Permutation.NoDup_Permutation.
    + eapply nodup_cells; eauto.
    + apply NoDup_nodup.
    + intros (s, k). rewrite A. unfold cells. rewrite nodup_In, in_map_iff. unfold cell. split; intros (t & H); exists t; intuition congruence.
Qed.

(** What a reset leaves: exactly the series whose newest bin was last given a
    point to persist, one point each; and further resets change nothing of that. *)
Theorem C144_survivors : forall (Q : QLib) (hfun : list string -> N) (w : Z) (ts : list telemetry) (now : Z) (nows : list Z),
  (0 < w)%Z -> no_collision hfun ts ->
  exists b, b_run hfun (b_new w) (map BAdd ts) = Some b /\
    let b' := resets nows (b_reset now b) in
    (forall s, In s (map series_key (b_iter b')) <-> survives w ts s) /\
    NoDup (map series_key (b_iter b')) /\
    b_count b' = N.min (N.of_nat (List.length (b_iter b'))) (2 ^ 64 - 1).
Proof.
  intros Q hfun w ts now nows Hw Hn. set (os := map BAdd ts ++ map BReset (now :: nows)).
  assert (Ha : adds os = ts). { unfold os. rewrite adds_app, adds_BAdd. rewrite (adds_resets (now :: nows)). apply app_nil_r. }
  destruct (C02_count_is_number_of_points Q hfun w (map BAdd ts)) as (b & Hr & _); [lia|]. exists b. split; [exact Hr|]. cbv zeta.
  assert (Hr' : b_run hfun (b_new w) os = Some (resets nows (b_reset now b))).
  { unfold os. rewrite b_run_app, Hr. apply (run_resets hfun (now :: nows)). }
  destruct (C02_count_is_number_of_points Q hfun w os) as (b2 & Hr2 & Hc & _); [lia|]. assert (b2 = resets nows (b_reset now b)) by congruence. subst b2.
  assert (Hn' : no_collision hfun (adds os)) by (rewrite Ha; exact Hn).
  destruct (ran hfun w Hw os _ Hn' Hr') as (HI & M & HM & HR). unfold os in HM. clearbody os. apply run_spec_app in HM as (M0 & H0 & H1). cbn [map] in H1. inversion H1 as [|? ? M1 ? ? Hop Hrun]; subst. clear H1.
  destruct (reset_once w M0 now M1 Hop) as (R1 & R2 & R3). destruct (resets_spec w nows M1 M R1 R2 Hrun) as (S1 & S2 & S3).
  split; [|split; [|exact Hc]].
  - intros s. transitivity (exists k p, M s k = Some p).
    + rewrite in_map_iff. split.
      * intros (p & <- & Hp). exists (pbin w p), p. apply HR. auto.
      * intros (k & p & E). apply HR in E as (E1 & E2 & _). eauto.
    + rewrite S3, R3. apply survives_spec. exact H0.
  - assert (Hs : forall p q, In p (b_iter (resets nows (b_reset now b))) -> In q (b_iter (resets nows (b_reset now b))) -> series_key p = series_key q -> cell w p = cell w q).
    { intros p q Hp Hq E. unfold cell. rewrite E. f_equal. apply (S2 (series_key p) _ _ p q); apply HR; auto. }
    assert (N := nodup_cells hfun w Hw os _ Hn' Hr'). revert N Hs. generalize (b_iter (resets nows (b_reset now b))). clear.
    induction l as [|p l IH]; intros N Hs; [constructor|]. cbn in *. inversion N as [|? ? N1 N2]; subst. constructor; [|apply IH; [exact N2|intros; apply Hs; auto]].
    intros Hin. apply in_map_iff in Hin as (q & E & Hq). apply N1. rewrite (Hs p q); auto. apply in_map. exact Hq.
Qed.

(** So points none of which is to persist leave nothing behind, and points all
    of which are to persist leave every series. *)
Theorem C144_all_or_nothing : forall (Q : QLib) (hfun : list string -> N) (w : Z) (ts : list telemetry) (now : Z),
  (0 < w)%Z -> no_collision hfun ts ->
  exists b, b_run hfun (b_new w) (map BAdd ts) = Some b /\
    (Forall (fun t => t_persist t = false) ts -> b_count (b_reset now b) = 0%N) /\
    (Forall (fun t => t_persist t = true) ts -> ts <> [] -> b_is_empty (b_reset now b) = false /\
       forall s, In s (map series_key (b_iter (b_reset now b))) <-> In s (map series_key ts)).
Proof.
  intros Q hfun w ts now Hw Hn. destruct (C144_survivors Q hfun w ts now [] Hw Hn) as (b & Hr & H1 & _ & Hc). cbn [resets fold_left] in *. exists b. split; [exact Hr|]. split.
  - intros Hp. rewrite Hc. destruct (b_iter (b_reset now b)) as [|p l] eqn:E; [reflexivity|exfalso].
    destruct (proj1 (H1 (series_key p)) (or_introl Logic.eq_refl)) as (k & t & _ & H2 & H3). apply final_In, filter_In in H2 as (H2 & _). rewrite Forall_forall in Hp. rewrite (Hp t H2) in H3. discriminate.
  - intros Hp Hne. assert (A : forall s, In s (map series_key (b_iter (b_reset now b))) <-> In s (map series_key ts)).
    { intros s. rewrite H1. rewrite in_map_iff. split.
      - intros (k & t & _ & H2 & _). apply final_In, filter_In in H2 as (H2 & H3). apply here_iff in H3 as (H3 & _). eauto.
      - intros (t & <- & Ht). destruct (newest_exists w ts (series_key t)) as (k & Hk); [eauto|]. exists k.
        destruct (proj2 (filter_here_some w ts (series_key t) k)) as (u & Hu); [apply Hk|]. exists u. split; [exact Hk|]. split; [exact Hu|].
        apply final_In, filter_In in Hu as (Hu & _). rewrite Forall_forall in Hp. apply Hp. exact Hu. }
    split; [|exact A]. unfold b_is_empty. apply N.eqb_neq. rewrite Hc. destruct ts as [|t ts]; [congruence|]. specialize (proj2 (A (series_key t)) (or_introl Logic.eq_refl)).
    destruct (b_iter (b_reset now b)) as [|p l]; [intros []|]. intros _. cbn [List.length]. lia.
Qed.

(** Rounds of the same points with resets between them: every round shows the
    names that went in, whatever came before. *)
Theorem C144_rounds : forall (Q : QLib) (hfun : list string -> N) (w : Z) (ts : list telemetry) (nows : list Z),
  (0 < w)%Z -> no_collision hfun ts ->
  exists b, b_run hfun (b_new w) (flat_map (fun now => map BAdd ts ++ [BReset now]) nows ++ map BAdd ts) = Some b /\
    (forall s, In s (map series_key (b_iter b)) <-> In s (map series_key ts)) /\
    (forall n, In n (map t_name (b_iter b)) <-> In n (map t_name ts)).
Proof.
  intros Q hfun w ts nows Hw Hn. set (os := flat_map (fun now => map BAdd ts ++ [BReset now]) nows).
  assert (Ha : forall t, In t (adds os) -> In t ts).
  { unfold os. clear. intros t. induction nows as [|n ns IH]; [intros []|]. cbn [flat_map]. rewrite !adds_app, adds_BAdd, !in_app_iff. intros [[H|[]]|H]; auto. }
  assert (Hn' : no_collision hfun (adds (os ++ map BAdd ts))).
  { intros x y Hx Hy. rewrite adds_app, adds_BAdd, in_app_iff in Hx, Hy. apply Hn; intuition. }
  destruct (C02_count_is_number_of_points Q hfun w (os ++ map BAdd ts)) as (b & Hr & _); [lia|]. exists b. split; [exact Hr|].
  destruct (ran hfun w Hw _ b Hn' Hr) as (HI & M & HM & HR).
  assert (A : forall s, In s (map series_key (b_iter b)) <-> In s (map series_key ts)).
  { intros s. rewrite !in_map_iff. split.
    - intros (p & <- & Hp). destruct (iter_series hfun w _ b p HI Hp) as (t & Ht & E). rewrite adds_app, adds_BAdd, in_app_iff in Ht. exists t. split; [exact E|]. destruct Ht; auto.
    - intros (t & <- & Ht). apply run_spec_app in HM as (M0 & _ & HM). assert (X := adds_cell w ts M0 M (series_key t) (pbin w t) HM).
      destruct (proj2 (filter_here_some w ts (series_key t) (pbin w t))) as (u & Hu); [exists t; split; [exact Ht|reflexivity]|]. rewrite Hu in X. destruct X as (p & E & _). apply HR in E as (E1 & E2 & _). eauto. }
  split; [exact A|]. intros n. assert (NK : forall l : list telemetry, In n (map t_name l) <-> exists r, In (n :: r) (map series_key l)).
  { clear. intros l. rewrite in_map_iff. split.
    - intros (t & <- & Ht). exists (flat_tags (t_tags t)). apply in_map_iff. exists t. split; [reflexivity|exact Ht].
    - intros (r & H). apply in_map_iff in H as (t & E & Ht). exists t. split; [unfold series_key in E; congruence|exact Ht]. }
  rewrite !NK. split; intros (r & H); exists r; apply A; exact H.
Qed.

(** Points to persist that come in the order of their bins make running
    totals: a bin holds everything its series received up to it. *)
Theorem C144_running : forall (Q : QLib) (hfun : list string -> N) (w : Z) (ts : list telemetry),
  (0 < w)%Z -> no_collision hfun ts -> in_order w ts -> Forall (fun t => t_persist t = true) ts ->
  exists b, b_run hfun (b_new w) (map BAdd ts) = Some b /\
    forall p, In p (b_iter b) -> total (filter (up_to w (series_key p) (pbin w p)) ts) = Some (t_value p).
Proof.
  intros Q hfun w ts Hw Hn Ho Hp. destruct (C02_count_is_number_of_points Q hfun w (map BAdd ts)) as (b & Hr & _); [lia|]. exists b. split; [exact Hr|].
  assert (Hn' : no_collision hfun (adds (map BAdd ts))) by (rewrite adds_BAdd; exact Hn).
  destruct (ran hfun w Hw _ b Hn' Hr) as (HI & M & HM & HR). intros p Hin. apply (running_run w ts Ho Hp M HM). apply HR. auto.
Qed.

(** The test's own count, by name and time, is not the buffer's: two tag sets
    of one name are two series. *)
Definition name_time_dec (a b : string * Z) : {a = b} + {a <> b}.
Proof. decide equality; [apply Z.eq_dec|apply string_dec]. Defined.
Definition by_name `{Q : QLib} (ts : list telemetry) : list (string * Z) :=
  nodup name_time_dec (map (fun t => (t_name t, t_timestamp t)) ts).
Definition c144_tagged : list (@telemetry xQ) :=
  [ mkTelemetry "a" (VSum (fofZ 1)) false (Some [("host", "x")]) 10 None None
  ; mkTelemetry "a" (VSum (fofZ 2)) false (Some [("host", "y")]) 10 None None ].
Definition c144_hash (s : list string) : N := match s with [_; _; "x"] => 4 | [_; _; "y"] => 5 | _ => xhash s end%N.
Lemma c144_tagged_ok : no_collision c144_hash c144_tagged.
Proof. intros a b Ha Hb. cbn in Ha, Hb. decompose [or] Ha; decompose [or] Hb; subst; try contradiction; vm_compute; intros H; try reflexivity; discriminate H. Qed.
Theorem C144_count_by_name_refuted : exists (Q : QLib) (hfun : list string -> N) (ts : list telemetry) (b : buckets),
  no_collision hfun ts /\ b_run hfun (b_new 1) (map BAdd ts) = Some b /\ b_count b <> N.of_nat (List.length (by_name ts)).
Proof.
  destruct (C144_cells xQ c144_hash 1 c144_tagged ltac:(lia) c144_tagged_ok) as (b & Hr & _ & _ & Hc).
  exists xQ, c144_hash, c144_tagged, b. split; [exact c144_tagged_ok|]. split; [exact Hr|]. rewrite Hc. vm_compute. discriminate.
Qed.

(** the hypotheses are met *)
Definition c144_points : list (@telemetry xQ) :=
  [ pt "a" (VSum (fofZ 1)) true None 1; pt "b" (VSum (fofZ 7)) true None 2; pt "a" (VSum (fofZ 2)) true None 3
  ; pt "a" (VSum (fofZ 3)) true None 12; pt "b" (VSum (fofZ 1)) false None 25; pt "a" (VSum (fofZ 4)) true None 34 ].
Lemma c144_points_ok : no_collision xhash c144_points.
Proof. intros a b Ha Hb. cbn in Ha, Hb. decompose [or] Ha; decompose [or] Hb; subst; try contradiction; vm_compute; intros H; try reflexivity; discriminate H. Qed.
Example C144_ex : option_map (fun b => map (fun p => (t_name p, t_value p, t_timestamp p)) (b_iter b)) (b_run xhash (b_new 10) (map BAdd c144_points)) =
    Some [ ("b", VSum (fofZ 7), 2%Z); ("b", VSum (fofZ 1), 25%Z); ("a", VSum (fofZ 3), 1%Z); ("a", VSum (fofZ 6), 12%Z); ("a", VSum (fofZ 10), 34%Z) ] /\
  option_map (fun b => map (fun p => (t_name p, t_value p, t_timestamp p)) (b_iter (resets [90%Z; 99%Z] (b_reset 80 b)))) (b_run xhash (b_new 10) (map BAdd c144_points)) =
    Some [ ("a", VSum (fofZ 10), 99%Z) ].
Proof. split; reflexivity. Qed.
Definition c144_running : list (@telemetry xQ) := filter (fun t => t_persist t) c144_points.
Lemma sorted_in_order `{Q : QLib} w ts : StronglySorted (fun a b => (pbin w a <= pbin w b)%Z) ts -> in_order w ts.
Proof. intros H l1 a l2 b l3 -> _. apply sorted_app_inv in H as (_ & H & _). inversion H as [|? ? _ HF]; subst. rewrite Forall_forall in HF. apply HF. apply in_or_app. right. left. reflexivity. Qed.
Example C144_running_ex : in_order 10 c144_running /\ Forall (fun t => t_persist t = true) c144_running /\ List.length c144_running = 5.
Proof. split; [apply sorted_in_order; repeat constructor; vm_compute; discriminate|]. split; [repeat constructor|reflexivity]. Qed.
Example C144_survivors_ex : survives 10 c144_points ["a"].
Proof.
  exists 3%Z, (pt "a" (VSum (fofZ 4)) true None 34). split; [|split; reflexivity]. split.
  - exists (pt "a" (VSum (fofZ 4)) true None 34). split; [cbn; tauto|reflexivity].
  - intros t Ht. cbn in Ht. decompose [or] Ht; subst; try contradiction; vm_compute; intros H; discriminate.
Qed.
Print Assumptions C144_cells.
Print Assumptions C144_survivors.
Print Assumptions C144_all_or_nothing.
Print Assumptions C144_rounds.
Print Assumptions C144_running.
Print Assumptions C144_count_by_name_refuted.
