From Verif Require Import Base BaseFacts TelemetryModel TelemetrySpec BucketsModel BucketsSpec FiltersModel FiltersProofs FlowModel FlowSpec ShownSpec WavefrontModel PrometheusModel PrometheusSpec PrometheusProofs PrometheusProps ScrapeModel ScrapeSpec ScrapeProofs ScrapeProps ArriveSpec ArriveProofs CollectSpec.
From Coq Require Import Lia Permutation.
Open Scope string_scope. Open Scope list_scope. Open Scope nat_scope.

Section P.
Context {Q : QLib}.
Lemma given_ops age ms : inserted (map pop_of (filter (young age) (told ms))) = given age ms.
Proof. unfold given, inserted. induction (filter (young age) (told ms)) as [|o l IH]; [reflexivity|]. cbn [map flat_map]. rewrite IH. destruct o; reflexivity. Qed.
Lemma given_app age a b : given age (a ++ b) = given age a ++ given age b.
Proof. unfold given. rewrite told_app, filter_app, flat_map_app. reflexivity. Qed.
Lemma inserted_app' a b : inserted (a ++ b) = inserted a ++ inserted b.
Proof. apply flat_map_app. Qed.
Lemma in_age_young age l : Forall (tellable age) l -> filter (in_age age) l = filter (young age) l.
Proof.
  intros T. apply filter_ext_in. intros o Ho. rewrite Forall_forall in T. specialize (T o Ho). destruct o as [now t|now|now]; try reflexivity. cbn in T |- *. destruct age as [n|]; [|reflexivity]. destruct T as [T1 T2].
  unfold abs64, as_i64. rewrite (wrap64_id (t_timestamp t - now)) by lia. rewrite (wrap64_id (Z.abs _)) by lia. rewrite (wrap64_id (Z.of_N n)) by lia. reflexivity.
Qed.
Lemma given_told age t cs ms ms' : does_all prom_does cs (told ms) -> in_reach age ms ms' t -> In (CDeliver (ETelemetry t)) cs -> In t (given age ms).
Proof.
  intros (parts & F & E) [_ Y] Hin. unfold given. assert (G : exists o, In o (told ms) /\ exists now, o = SDeliver now t); [|destruct G as (o & Ho & now & ->); apply in_flat_map; exists (SDeliver now t); split; [apply filter_In; auto|left; reflexivity]].
  rewrite E. revert Hin. clear E Y. induction F as [|c p cs ps Hc F IH]; [intros []|]. intros [->|Hin].
  - cbn in Hc. destruct Hc as (now & ->). exists (SDeliver now t). split; [left; reflexivity|eauto].
  - destruct (IH Hin) as (o & Ho & Ht). exists o. split; [|exact Ht]. cbn. apply in_or_app. right. exact Ho.
Qed.
Lemma last_taken (l0 log l1 l2 : list happening) r : l0 ++ log = l1 ++ EvTaken r :: l2 -> no_taken l2 -> In (EvTaken r) log -> exists m, l1 = l0 ++ m /\ log = m ++ EvTaken r :: l2.
Proof.
  revert l1. induction l0 as [|e l0 IH]; intros l1 E N Hin; cbn in E; [exists l1; auto|].
  destruct l1 as [|e1 l1]; cbn in E; injection E as -> E.
  - exfalso. assert (In r (taken l2)). { subst l2. unfold taken. apply in_flat_map. exists (EvTaken r). split; [apply in_or_app; auto|left; reflexivity]. } rewrite N in H. destruct H.
  - destruct (IH l1 E N Hin) as (m & -> & Em). exists m. auto.
Qed.
(** what an answered request saw *)
Lemma saw cap show_f show_n default age gzip shuffle ms ms' r body : Forall (tellable age) (told (ms ++ ms')) -> asked_after cap show_f show_n default age gzip shuffle ms ms' r body ->
  exists ops a bs ts text more rest, pa_run ops (pa_new cap) = Some (a, bs) /\ pa_reportable a = Some ts /\ write_text show_f show_n default (shuffle r ts) = Some text /\
    body = match gzip with Some z => z text | None => text end /\ given age ms' = more ++ rest /\ inserted ops = given age ms ++ more.
Proof.
  intros Tl (s & s' & log & h & sent & log' & R & Hi & R' & El & Ht).
  assert (R2 : sc_run show_f show_n default age gzip shuffle (ms ++ ms') (sc_start cap) = Some s') by (rewrite run_app, R; exact R').
  rewrite app_assoc in El.
  destruct (C121_snapshot Q show_f show_n cap default age gzip shuffle _ _ _ _ _ _ _ _ R2 El) as (l1 & l2 & l3 & a & bs & ts & text & E1 & N2 & N3 & Ra & Er & Et & Eb & _).
  destruct (C121_points_kept Q show_f show_n cap default age gzip shuffle _ _ R) as (_ & p & Ep & _ & Np). rewrite in_age_young in Ep by (rewrite told_app in Tl; apply Forall_app in Tl; tauto). rewrite (Np (or_introl Hi)), app_nil_r in Ep.
  destruct (C121_points_kept Q show_f show_n cap default age gzip shuffle _ _ R2) as (_ & p' & Ep' & _). rewrite in_age_young, told_app, filter_app, map_app, Ep in Ep' by exact Tl.
  assert (N23 : no_taken (l2 ++ l3)) by (unfold no_taken in *; rewrite taken_app, N2, N3; reflexivity).
  destruct (last_taken _ _ _ _ _ E1 N23 Ht) as (m & -> & Em).
  rewrite El, E1 in Ep'. change (EvTaken r :: l2 ++ l3) with ([EvTaken r] ++ l2 ++ l3) in Ep'. match type of Ep' with context [_ :: log'] => change (EvAnswer r (A200 h body sent) :: log') with ([EvAnswer r (A200 h body sent)] ++ log') in Ep' end. rewrite !ops_app in Ep'. rewrite <- !app_assoc in Ep'. apply app_inv_head in Ep'. change (ops_of [EvTaken r]) with (@nil pop) in Ep'. change (ops_of [EvAnswer r (A200 h body sent)]) with (@nil pop) in Ep'. cbn [app] in Ep'.
  exists (ops_of ((sc_log s ++ m) ++ l2)), a, bs, ts, text, (inserted (ops_of (m ++ l2))), (inserted (ops_of l3 ++ ops_of log' ++ p')).
  split; [exact Ra|]. split; [exact Er|]. split; [exact Et|]. split; [exact Eb|]. split.
  - rewrite <- given_ops, Ep', <- inserted_app'. f_equal. rewrite ops_app, <- ?app_assoc. reflexivity.
  - rewrite <- app_assoc, ops_app, inserted_app', <- Ep, given_ops. reflexivity.
Qed.
Lemma reported_in l x : forall ts t, reported l = Some ts -> In x l -> a_report x = Some (Some t) -> In t ts.
Proof.
  induction l as [|a l IH]; intros ts t E Hin Hr; [destruct Hin|]. cbn in E. destruct Hin as [->|Hin].
  - rewrite Hr in E. destruct (reported l); [|discriminate]. injection E as <-. left. reflexivity.
  - destruct (a_report a) as [[u|]|]; [| |discriminate]; (destruct (reported l) as [us|]; [|discriminate]); injection E as <-; [right|]; eapply IH; eauto.
Qed.
Lemma reported_from l : forall ts t, reported l = Some ts -> In t ts -> exists x, In x l /\ a_report x = Some (Some t).
Proof.
  induction l as [|a l IH]; intros ts t E Hin; cbn in E; [injection E as <-; destruct Hin|].
  destruct (a_report a) as [[u|]|] eqn:Ea; [| |discriminate]; (destruct (reported l) as [us|]; [|discriminate]); injection E as <-.
  - destruct Hin as [->|Hin]; [exists a; split; [left; reflexivity|exact Ea]|]. destruct (IH _ _ eq_refl Hin) as (x & Hx & Hr). exists x. split; [right; exact Hx|exact Hr].
  - destruct (IH _ _ eq_refl Hin) as (x & Hx & Hr). exists x. split; [right; exact Hx|exact Hr].
Qed.
Lemma alookup_in' {A} n (x : A) l : alookup seqb n l = Some x -> In (n, x) l.
Proof. induction l as [|[k y] l IH]; cbn; [discriminate|]. destruct (seqb n k) eqn:E; [|right; auto]. intros [= ->]. apply seqb_eq in E. subst. left. reflexivity. Qed.
Lemma find_prefix (f : telemetry -> bool) l m u : find f l = Some u -> find f (l ++ m) = Some u.
Proof. induction l as [|a l IH]; cbn; [discriminate|]. destruct (f a); auto. Qed.
Lemma Forall2_in_split {A B} (P : A -> B -> Prop) l m x : Forall2 P l m -> In x l -> exists m1 y m2, m = m1 ++ y :: m2 /\ P x y.
Proof.
  induction 1 as [|a b l m H F IH]; [intros []|]. intros [->|Hin]; [exists [], b, m; auto|]. destruct (IH Hin) as (m1 & y & m2 & -> & Hy). exists (b :: m1), y, m2. auto.
Qed.
End P.
