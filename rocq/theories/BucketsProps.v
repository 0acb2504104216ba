(** * Properties C01-C05: the aggregation buffer. *)
From Coq Require Import Lia Sorted.
From Verif Require Import Base BaseFacts TelemetryModel TelemetryProofs BucketsModel BucketsSpec BucketsProofs QExample TelemetryProps.
Open Scope string_scope. Open Scope list_scope.

Section Lift.
Context `{Q : QLib}.
Variable hfun : list string -> N.
Definition occurs (ts : list telemetry) (s : list string) : Prop := exists t, In t ts /\ series_key t = s.
Lemma occurs_inj ts : no_collision hfun ts ->
  forall a b, occurs ts a -> occurs ts b -> hfun a = hfun b -> a = b.
Proof. intros H a b (x & Hx & <-) (y & Hy & <-) E. apply H; assumption. Qed.
Lemma occurs_self os : forall t, In t (adds os) -> occurs (adds os) (series_key t).
Proof. intros t Ht; exists t; auto. Qed.
Lemma empty_represents w : represents w (b_iter (b_new w)) empty_map.
Proof. intros s k p. cbn. split; [discriminate|tauto]. Qed.
End Lift.

(** ** C01: the buffer refines the map from (series, bin) to merged points, for
    every history of adds and resets. *)
Theorem C01_buffer_refines_map : forall (Q : QLib) (hfun : list string -> N) (w : Z) (os : list bop),
  (0 < w)%Z -> no_collision hfun (adds os) ->
  exists b M, b_run hfun (b_new w) os = Some b /\ run_spec w empty_map os M /\ represents w (b_iter b) M.
Proof.
  intros Q hfun w os Hw Hn.
  destruct (run_refines hfun w Hw (occurs (adds os)) (occurs_inj hfun (adds os) Hn) os (b_new w) empty_map)
    as (b & M & H1 & _ & H2 & H3); auto using empty_represents, occurs_self.
  - apply Inv_new.
  - exists b, M; auto.
Qed.

(** The iterator yields at most one point per (series, bin). *)
Theorem C01_one_point_per_bin : forall (Q : QLib) (hfun : list string -> N) (w : Z) (os : list bop) (b : buckets) (p q : telemetry)
    (l1 l2 l3 : list telemetry),
  (0 < w)%Z -> no_collision hfun (adds os) -> b_run hfun (b_new w) os = Some b ->
  b_iter b = l1 ++ p :: l2 ++ q :: l3 -> series_key p = series_key q -> pbin w p <> pbin w q.
Proof.
  intros Q hfun w os b p q l1 l2 l3 Hw Hn Hr Hl Hs Hb.
  pose proof (run_Inv hfun w Hw (occurs (adds os)) (occurs_inj hfun (adds os) Hn) os (b_new w) b
    (Inv_new _ _ _) (occurs_self os) Hr) as HI.
  apply iter_sorted in HI. rewrite Hl in HI. apply BaseFacts.sorted_app_inv in HI as (_ & HI & _).
  inversion HI as [|? ? _ HF]; subst. rewrite Forall_forall in HF.
  specialize (HF q). rewrite in_app_iff in HF. cbn in HF. unfold plt, name_tag_hash in HF.
  rewrite Hs in HF. specialize (HF ltac:(auto)). lia.
Qed.

(** Without persisted points: each (series, bin) holds the left-to-right merge
    of exactly the points added for it. *)
Theorem C01_bin_holds_in_order_merge : forall (Q : QLib) (hfun : list string -> N) (w : Z) (ts : list telemetry),
  (0 < w)%Z -> no_collision hfun ts -> Forall (fun t => t_persist t = false) ts ->
  exists b, b_run hfun (b_new w) (map BAdd ts) = Some b /\
    forall s k p, (In p (b_iter b) /\ series_key p = s /\ pbin w p = k) <->
                  merged (filter (here w s k) ts) = Some p.
Proof.
  intros Q hfun w ts Hw Hn Hp.
  assert (E : adds (map BAdd ts) = ts) by (unfold adds; clear; induction ts; cbn; congruence).
  destruct (C01_buffer_refines_map Q hfun w (map BAdd ts) Hw) as (b & M & H1 & H2 & H3); [rewrite E; exact Hn|].
  exists b. split; [assumption|]. intros s k p. rewrite <- (H3 s k p).
  rewrite (plain_run w ts [] empty_map M); cbn; auto; reflexivity.
Qed.

Definition xhash (s : list string) : N :=
  match s with
  | "a" :: _ => 7
  | "b" :: _ => 3
  | _ => 1
  end%N.
Definition c01_history : list (@bop xQ) :=
  [ BAdd (pt "a" (VSum (fofZ 1)) false None 10)
  ; BAdd (pt "b" (VSet (fofZ 5)) true None 3)
  ; BAdd (pt "a" (VSum (fofZ 2)) false None 11)
  ; BAdd (pt "b" (VSum (fofZ 4)) true None 25)
  ; BAdd (pt "a" (VSum (fofZ 3)) false None 0) ].
Lemma c01_no_collision : no_collision xhash (adds c01_history).
Proof.
  intros a b Ha Hb. cbn in Ha, Hb. decompose [or] Ha; decompose [or] Hb; subst; try contradiction;
    cbn; intros H; try reflexivity; discriminate H.
Qed.
Example C01_ex : option_map (fun b => map (fun p => (t_name p, t_value p, t_timestamp p)) (b_iter b))
  (b_run xhash (b_new 10) c01_history) =
  Some [ ("b", VSet (fofZ 5), 3%Z); ("b", VSum (fadd (fofZ 5) (fofZ 4)), 25%Z);
         ("a", VSum (fofZ 3), 0%Z); ("a", VSum (fadd (fofZ 1) (fofZ 2)), 10%Z) ].
Proof. reflexivity. Qed.

Print Assumptions C01_buffer_refines_map.
Print Assumptions C01_one_point_per_bin.
Print Assumptions C01_bin_holds_in_order_merge.

(** ** C02: no assumption on the hash; the counter is a saturating u64. *)
Theorem C02_count_is_number_of_points : forall (Q : QLib) (hfun : list string -> N) (w : Z) (os : list bop),
  w <> 0%Z ->
  exists b, b_run hfun (b_new w) os = Some b /\
    b_count b = N.min (N.of_nat (List.length (b_iter b))) (2 ^ 64 - 1) /\
    (b_is_empty b = true <-> b_iter b = []).
Proof.
  intros Q hfun w os Hw. destruct (run_Inv0 hfun w os Hw (b_new w)) as (b & H1 & _ & _ & H2).
  - split; [reflexivity|]. split; reflexivity.
  - exists b. split; [assumption|]. split; [exact H2|].
    unfold b_is_empty. rewrite N.eqb_eq, H2. destruct (b_iter b); cbn; [tauto|].
    split; [|discriminate]. unfold u64_max. intros; exfalso; lia.
Qed.
Lemma in_insert_at {A} (a : A) i l x : In x (insert_at i a l) <-> x = a \/ In x l.
Proof. rewrite insert_at_split. rewrite <- (firstn_skipn i l) at 3. rewrite !in_app_iff. cbn. intuition congruence. Qed.
Lemma add_keys {Q : QLib} hfun b t b' : StronglySorted N.lt (b_keys b) -> b_add hfun b t = Some b' -> forall h, In h (b_keys b') <-> h = hfun (series_key t) \/ In h (b_keys b).
Proof.
  intros Hs E h. unfold b_add in E. pose proof (bsearch_bound (fun probe => N.compare probe (name_tag_hash hfun t)) (b_keys b)) as Hb.
  destruct (bsearch (fun probe => N.compare probe (name_tag_hash hfun t)) (b_keys b)) as [i|i] eqn:Ei.
  - destruct (nth_error (b_values b) i) as [v|]; [|discriminate]. destruct (vec_add (b_width b) v t) as [[v' gr]|]; [|discriminate]. injection E as <-. cbn [b_keys].
    split; [auto|]. intros [->|H]; [|exact H]. unfold bsearch in Ei. destruct (b_keys b) as [|x l] eqn:Ek; [discriminate|].
    destruct (nth_error (x :: l) (bs_loop _ (x :: l) _ 0 _)) as [y|] eqn:En; [|discriminate]. destruct (N.compare y (name_tag_hash hfun t)) eqn:Ec; try discriminate. apply N.compare_eq in Ec. fold (name_tag_hash hfun t). rewrite <- Ec. apply nth_error_In in En. exact En.
  - destruct (nth_error (insert_at i [] (b_values b)) i) as [v|]; [|discriminate]. destruct (vec_add (b_width b) v t) as [[v' gr]|]; [|discriminate]. injection E as <-. cbn [b_keys]. apply in_insert_at.
Qed.
(** the length is the number of series ever added, whether they have points or not *)
Theorem C02_len : forall (Q : QLib) (hfun : list string -> N) (w : Z) (os : list bop) (b : buckets),
  (0 < w)%Z -> no_collision hfun (adds os) -> b_run hfun (b_new w) os = Some b ->
  exists series, NoDup series /\ (forall s, In s series <-> exists t, In t (adds os) /\ series_key t = s) /\ b_len b = List.length series.
Proof.
  intros Q hfun w os b Hw Hn Hr.
  assert (K : forall os1 os2 b1, os = os1 ++ os2 -> b_run hfun (b_new w) os1 = Some b1 -> StronglySorted N.lt (b_keys b1) /\ forall h, In h (b_keys b1) <-> exists t, In t (adds os1) /\ hfun (series_key t) = h).
  { induction os1 as [|o os1 IH] using rev_ind; intros os2 b1 E R.
    - cbn in R. injection R as <-. split; [constructor|]. intros h. cbn. split; [intros []|intros (t & [] & _)].
    - assert (Run : exists b0, b_run hfun (b_new w) os1 = Some b0 /\ b_step hfun b0 o = Some b1).
      { clear - R. revert R. generalize (b_new w). induction os1 as [|o1 os1 IH]; intros b R; cbn [b_run app] in *.
        - exists b. split; [reflexivity|]. destruct (b_step hfun b o); congruence.
        - destruct (b_step hfun b o1); [|discriminate]. apply IH. exact R. }
      destruct Run as (b0 & R0 & S0). rewrite <- app_assoc in E. destruct (IH _ _ E R0) as [Hs Hk]. split.
      + assert (HI : Inv hfun w (occurs (adds os)) b1).
        { eapply (run_Inv hfun w Hw (occurs (adds os)) (occurs_inj hfun (adds os) Hn) (os1 ++ [o]) (b_new w)); [apply Inv_new| |exact R].
          intros t Ht. apply (occurs_self os). rewrite E. unfold adds in *. rewrite app_assoc, flat_map_app. apply in_or_app. auto. }
        apply HI.
      + intros h. unfold adds. rewrite flat_map_app. destruct o as [t|now]; cbn [b_step] in S0.
        * rewrite (add_keys hfun b0 t b1 Hs S0), Hk. cbn [flat_map app]. fold (adds os1). setoid_rewrite in_app_iff. split.
          -- intros [->|(t' & H1 & H2)]; [exists t; split; [right; left; reflexivity|reflexivity]|exists t'; auto].
          -- intros (t' & [H1|[->|[]]] & H2); [right; exists t'; auto|left; auto].
        * injection S0 as <-. cbn [b_reset b_keys flat_map]. rewrite app_nil_r. apply Hk. }
  destruct (K os [] b (eq_sym (app_nil_r os)) Hr) as [Hs Hk].
  exists (nodup (list_eq_dec string_dec) (map series_key (adds os))). split; [apply NoDup_nodup|]. split.
  { intros s. rewrite nodup_In, in_map_iff. split; intros (t & H1 & H2); exists t; auto. }
  set (ss := nodup (list_eq_dec string_dec) (map series_key (adds os))). unfold b_len. rewrite <- (map_length hfun ss).
  assert (Nk : NoDup (b_keys b)) by (clear - Hs; induction Hs as [|x l _ IH F]; constructor; [intros Hx; rewrite Forall_forall in F; specialize (F _ Hx); lia|exact IH]).
  assert (Nm : NoDup (map hfun ss)).
  { assert (J : forall a c, In a ss -> In c ss -> hfun a = hfun c -> a = c).
    { intros a c Ha Hc Hh. unfold ss in Ha, Hc. rewrite nodup_In, in_map_iff in Ha, Hc. destruct Ha as (t1 & <- & H1), Hc as (t2 & <- & H2). apply (occurs_inj hfun (adds os) Hn); [exists t1|exists t2|]; auto. }
    assert (Ns : NoDup ss) by apply NoDup_nodup. clearbody ss. clear - J Ns. induction Ns as [|a ss Ha _ IH]; [constructor|]. cbn. constructor.
    - rewrite in_map_iff. intros (c & Hc & Hin). apply Ha. rewrite (J a c) by (cbn; auto). exact Hin.
    - apply IH. intros; apply J; cbn; auto. }
  assert (Eq : forall h, In h (b_keys b) <-> In h (map hfun ss)).
  { intros h. rewrite Hk, in_map_iff. unfold ss. split.
    - intros (t & H1 & H2). exists (series_key t). split; [exact H2|]. apply nodup_In. apply in_map. exact H1.
    - intros (s & H1 & H2). apply nodup_In in H2. apply in_map_iff in H2 as (t & <- & Ht). exists t. auto. }
  apply Nat.le_antisymm; apply NoDup_incl_length; auto; intros h Hh; apply Eq; exact Hh.
Qed.
Example C02_ex : option_map b_count (b_run xhash (b_new 10) (c01_history ++ [BReset 40; BAdd (pt "b" (VSet (fofZ 1)) false None 39)])) = Some 2%N.
Proof. reflexivity. Qed.
Example C02_ex_len : option_map b_len (b_run xhash (b_new 10) (c01_history ++ [BReset 40])) = Some 2.
Proof. reflexivity. Qed.
Print Assumptions C02_count_is_number_of_points.
Print Assumptions C02_len.

(** ** C03 *)
Theorem C03_reset_keeps_newest_persisted : forall (Q : QLib) (hfun : list string -> N) (w : Z) (os : list bop) (b : buckets) (now : Z) (p' : telemetry),
  (0 < w)%Z -> no_collision hfun (adds os) -> b_run hfun (b_new w) os = Some b ->
  (In p' (b_iter (b_reset now b)) <->
   exists p, In p (b_iter b) /\ t_persist p = true /\
     (forall q, In q (b_iter b) -> series_key q = series_key p -> (pbin w q <= pbin w p)%Z) /\
     t_name p' = t_name p /\ t_value p' = t_value p /\ t_tags p' = t_tags p /\ t_persist p' = true /\
     t_timestamp p' = now /\ t_override_count p' = t_override_count p /\ t_override_sum p' = t_override_sum p).
Proof.
  intros Q hfun w os b now p' Hw Hn Hr.
  pose proof (run_Inv hfun w Hw (occurs (adds os)) (occurs_inj hfun (adds os) Hn) os (b_new w) b
    (Inv_new _ _ _) (occurs_self os) Hr) as HI.
  rewrite (reset_In hfun w (occurs (adds os)) (occurs_inj hfun (adds os) Hn) now b p' HI).
  split.
  - intros (p & H1 & H2 & -> & H3). exists p. cbn. repeat split; auto.
  - intros (p & H1 & H2 & H3 & E1 & E2 & E3 & E4 & E5 & E6 & E7). exists p. repeat split; auto.
    destruct p' as [n v pe tg ts oc os']. destruct p; cbn in *. subst. reflexivity.
Qed.
Theorem C03_reset_idempotent : forall (Q : QLib) (b : buckets) (now : Z),
  b_reset now (b_reset now b) = b_reset now b.
Proof. intros. apply reset_idem. Qed.
Example C03_ex : option_map (fun b => map (fun p => (t_name p, t_value p, t_timestamp p)) (b_iter (b_reset 99 b)))
  (b_run xhash (b_new 10) c01_history) = Some [("b", VSum (fadd (fofZ 5) (fofZ 4)), 99%Z)].
Proof. reflexivity. Qed.
Print Assumptions C03_reset_keeps_newest_persisted.
Print Assumptions C03_reset_idempotent.

(** ** C04: strictly increasing in (hash, bin): so each series is one run. *)
Theorem C04_iteration_order : forall (Q : QLib) (hfun : list string -> N) (w : Z) (os : list bop) (b : buckets)
    (l1 l2 l3 : list telemetry) (p q : telemetry),
  (0 < w)%Z -> no_collision hfun (adds os) -> b_run hfun (b_new w) os = Some b ->
  b_iter b = l1 ++ p :: l2 ++ q :: l3 ->
  (hfun (series_key p) < hfun (series_key q))%N \/
  (series_key p = series_key q /\ (pbin w p < pbin w q)%Z /\ Forall (fun r => series_key r = series_key p) l2).
Proof.
  intros Q hfun w os b l1 l2 l3 p q Hw Hn Hr Hl.
  pose proof (run_Inv hfun w Hw (occurs (adds os)) (occurs_inj hfun (adds os) Hn) os (b_new w) b
    (Inv_new _ _ _) (occurs_self os) Hr) as HI.
  assert (Hser : forall x, In x (b_iter b) -> occurs (adds os) (series_key x))
    by (intros x Hx; eapply iter_series; eauto).
  apply iter_sorted in HI. rewrite Hl in *. apply BaseFacts.sorted_app_inv in HI as (_ & HI & _).
  inversion HI as [|? ? HI2 HF]; subst. apply BaseFacts.sorted_app_inv in HI2 as (_ & _ & HI3).
  rewrite Forall_forall in HF. unfold plt, name_tag_hash in *.
  assert (Hpq := HF q ltac:(rewrite in_app_iff; cbn; auto)).
  destruct Hpq as [Hpq|[Hpq1 Hpq2]]; [left; assumption|right].
  assert (Ip : occurs (adds os) (series_key p)) by (apply Hser; rewrite in_app_iff; cbn; auto).
  assert (Iq : occurs (adds os) (series_key q)) by (apply Hser; rewrite !in_app_iff; cbn; rewrite in_app_iff; cbn; auto).
  split; [apply (occurs_inj hfun (adds os) Hn); assumption|]. split; [assumption|].
  apply Forall_forall. intros r Hin. apply (occurs_inj hfun (adds os) Hn).
  - apply Hser. rewrite !in_app_iff; cbn; rewrite in_app_iff; auto.
  - assumption.
  - specialize (HF r ltac:(rewrite in_app_iff; auto)). specialize (HI3 r q Hin (or_introl eq_refl)). lia.
Qed.
Example C04_ex : option_map (fun b => map (fun p => (xhash (series_key p), pbin 10 p)) (b_iter b))
  (b_run xhash (b_new 10) c01_history) = Some [(3%N, 0%Z); (3%N, 2%Z); (7%N, 0%Z); (7%N, 1%Z)].
Proof. reflexivity. Qed.
Print Assumptions C04_iteration_order.

(** ** C05 *)
Theorem C05_add_frame : forall (Q : QLib) (hfun : list string -> N) (w : Z) (os : list bop) (b b' : buckets) (t p : telemetry),
  (0 < w)%Z -> no_collision hfun (t :: adds os) -> b_run hfun (b_new w) os = Some b -> b_add hfun b t = Some b' ->
  series_key p <> series_key t \/ pbin w p <> pbin w t ->
  (In p (b_iter b') <-> In p (b_iter b)).
Proof.
  intros Q hfun w os b b' t p Hw Hn Hr Ha Hne.
  pose proof (occurs_inj hfun _ Hn) as Hinj.
  eapply (add_frame hfun w Hw (occurs (t :: adds os))); eauto.
  - eapply run_Inv; eauto; [apply Inv_new|]. intros x Hx; exists x; cbn; auto.
  - exists t; cbn; auto.
Qed.
Example C05_ex : option_map (fun b => map (fun p => (t_name p, t_value p, t_timestamp p)) (b_iter b))
  (b_run xhash (b_new 10) (c01_history ++ [BAdd (pt "a" (VSum (fofZ 8)) false None 12)])) =
  Some [ ("b", VSet (fofZ 5), 3%Z); ("b", VSum (fadd (fofZ 5) (fofZ 4)), 25%Z);
         ("a", VSum (fofZ 3), 0%Z); ("a", VSum (fadd (fadd (fofZ 1) (fofZ 2)) (fofZ 8)), 10%Z) ].
Proof. reflexivity. Qed.
Print Assumptions C05_add_frame.
