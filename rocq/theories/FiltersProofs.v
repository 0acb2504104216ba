(** * Proofs about the filters. *)
From Verif Require Import Base BaseFacts TelemetryModel TelemetryProofs FlowModel FlowSpec FiltersModel FiltersSpec.

Section Proofs.
Context `{Q : QLib}.

(** ** Delay filter *)
Lemma wrap64_id z : (- 2 ^ 63 <= z < 2 ^ 63)%Z -> wrap64 z = z.
Proof.
  intros H. unfold wrap64. cbv zeta. destruct (Z.lt_ge_cases z 0) as [Hz|Hz].
  - rewrite <- (Z_mod_plus_full z 1), Z.mod_small by lia.
    destruct (_ <? _)%Z eqn:E; lia.
  - rewrite Z.mod_small by lia. destruct (_ <? _)%Z eqn:E; lia.
Qed.
Lemma delay_accepts_fits tol now ts : (Z.abs (ts - now) < 2 ^ 63)%Z ->
  delay_accepts tol now ts = (Z.abs (ts - now) <? tol)%Z.
Proof.
  intros H. unfold delay_accepts, abs64. rewrite (wrap64_id (ts - now)) by lia.
  rewrite wrap64_id by lia. reflexivity.
Qed.

Definition dc_add (a b : delay_counts) : delay_counts :=
  mkDC (dc_telem_acc a + dc_telem_acc b) (dc_telem_rej a + dc_telem_rej b)
       (dc_log_acc a + dc_log_acc b) (dc_log_rej a + dc_log_rej b).

Lemma delay_run_spec tol l : Forall fits l -> forall c,
  snd (delay_run tol c l) = map snd (filter (strictly_timely tol) l) /\
  dc_telem_acc (fst (delay_run tol c l)) = (dc_telem_acc c + count (fun ce => is_telemetry (snd ce) && strictly_timely tol ce)%bool l)%N /\
  dc_telem_rej (fst (delay_run tol c l)) = (dc_telem_rej c + count (fun ce => is_telemetry (snd ce) && negb (strictly_timely tol ce))%bool l)%N /\
  dc_log_acc (fst (delay_run tol c l)) = (dc_log_acc c + count (fun ce => is_log (snd ce) && strictly_timely tol ce)%bool l)%N /\
  dc_log_rej (fst (delay_run tol c l)) = (dc_log_rej c + count (fun ce => is_log (snd ce) && negb (strictly_timely tol ce))%bool l)%N.
Proof.
  unfold count. induction 1 as [|[now e] l Hf HF IH]; intros c; cbn [delay_run].
  - cbn. repeat split; lia.
  - destruct (delay_process tol now c e) as [c' out] eqn:Ep.
    destruct (delay_run tol c' l) as [c'' outs] eqn:Er.
    destruct (IH c') as (I1 & I2 & I3 & I4 & I5). rewrite Er in *. cbn [fst snd] in *. subst outs.
    unfold fits in Hf; cbn [snd fst] in Hf.
    assert (Hb : forall ts, e_timestamp e = Some ts -> delay_accepts tol now ts = strictly_timely tol (now, e)).
    { intros ts Ets. unfold strictly_timely; cbn [fst snd]. rewrite Ets in *. apply delay_accepts_fits; assumption. }
    cbn [filter snd].
    destruct e as [t|g|i| |r]; cbn [is_telemetry is_log andb delay_process] in *.
    1: rewrite (Hb _ eq_refl) in Ep. 2: rewrite (Hb _ eq_refl) in Ep.
    1,2: (destruct (strictly_timely tol (now, _)); inversion Ep; subst;
      cbn [dc_telem_acc dc_telem_rej dc_log_acc dc_log_rej andb negb] in *; cbn [List.length map snd app];
      rewrite ?I2, ?I3, ?I4, ?I5; repeat split; lia).
    all: inversion Ep; subst; unfold strictly_timely at 1; cbn [e_timestamp snd map app]; auto.
Qed.

Lemma delay_never_fails tol clock : never_fails (delay_filt tol clock).
Proof. intros st e. cbn. destruct (delay_process _ _ _ _). reflexivity. Qed.
Lemma fb_never_fails tol : never_fails (fb_filt tol).
Proof. intros st e. cbn. destruct (fb_process _ _ _). reflexivity. Qed.

(** ** Flush boundary filter *)
Definition hold_ok (h : hold) : Prop := Forall (fun e => e_timestamp e = Some (h_ts h)) (h_events h).
Definition fb_inv (hs : list hold) : Prop :=
  StronglySorted Z.lt (map h_ts hs) /\ Forall hold_ok hs.

(** what the filter holds for one timestamp: age and events *)
Fixpoint view (ts : Z) (hs : list hold) : option (nat * list event) :=
  match hs with
  | [] => None
  | h :: r => if Z.eqb (h_ts h) ts then Some (h_age h, h_events h) else view ts r
  end.
Definition vheld (v : option (nat * list event)) : list event := match v with Some (_, l) => l | None => [] end.

Lemma view_app ts a b : view ts (a ++ b) = match view ts a with Some v => Some v | None => view ts b end.
Proof. induction a as [|h a IH]; cbn; [reflexivity|]. destruct (Z.eqb _ _); auto. Qed.
Lemma view_lt ts hs : Forall (fun h => (h_ts h < ts)%Z) hs -> view ts hs = None.
Proof. induction 1 as [|h hs H _ IH]; cbn; [reflexivity|]. destruct (Z.eqb_spec (h_ts h) ts); [lia|assumption]. Qed.
Lemma view_gt ts hs : Forall (fun h => (ts < h_ts h)%Z) hs -> view ts hs = None.
Proof. induction 1 as [|h hs H _ IH]; cbn; [reflexivity|]. destruct (Z.eqb_spec (h_ts h) ts); [lia|assumption]. Qed.

Lemma sorted_gt h hs : StronglySorted Z.lt (map h_ts (h :: hs)) -> Forall (fun x => (h_ts h < h_ts x)%Z) hs.
Proof. intros H. inversion H as [|? ? ? HF]; subst. rewrite Forall_map in HF. exact HF. Qed.

Lemma fb_split hs ts : StronglySorted Z.lt (map h_ts hs) ->
  (exists l1 l2, hs = l1 ++ l2 /\ Forall (fun h => (h_ts h < ts)%Z) l1 /\ Forall (fun h => (ts < h_ts h)%Z) l2) \/
  (exists l1 h l2, hs = l1 ++ h :: l2 /\ h_ts h = ts /\ Forall (fun h => (h_ts h < ts)%Z) l1 /\ Forall (fun h => (ts < h_ts h)%Z) l2).
Proof.
  induction hs as [|h hs IH]; intros Hs.
  - left. exists [], []. auto.
  - pose proof (sorted_gt _ _ Hs) as Hg. inversion Hs as [|? ? Hs1 _]; subst.
    destruct (Z.lt_trichotomy (h_ts h) ts) as [H|[H|H]].
    + destruct (IH Hs1) as [(l1 & l2 & -> & H1 & H2)|(l1 & x & l2 & -> & Hx & H1 & H2)].
      * left. exists (h :: l1), l2. auto.
      * right. exists (h :: l1), x, l2. auto.
    + right. exists [], h, hs. subst ts. auto.
    + left. exists [], (h :: hs). split; [reflexivity|]. split; [constructor|]. constructor; [assumption|].
      eapply Forall_impl; [|exact Hg]. cbn; intros; lia.
Qed.

Lemma sorted_app_iff (a b : list Z) : StronglySorted Z.lt (a ++ b) <->
  StronglySorted Z.lt a /\ StronglySorted Z.lt b /\ Forall (fun x => Forall (fun y => (x < y)%Z) b) a.
Proof.
  induction a as [|x a IH]; cbn.
  - split; [intros H; repeat split; auto; constructor|intros (_ & H & _); assumption].
  - split.
    + intros H. inversion H as [|? ? H1 H2]; subst. apply IH in H1 as (A & B & C).
      rewrite Forall_app in H2. destruct H2. repeat split; try constructor; auto.
    + intros (A & B & C). inversion A; subst. inversion C; subst.
      constructor; [apply IH; auto|]. rewrite Forall_app; auto.
Qed.

Lemma held_view ts hs : fb_inv hs -> filter (at_ts ts) (held hs) = vheld (view ts hs).
Proof.
  intros [Hs Hk]. induction hs as [|h hs IH]; [reflexivity|].
  pose proof (sorted_gt _ _ Hs) as Hg.
  inversion Hs as [|? ? Hs1 _]; subst. inversion Hk as [|? ? Hk1 Hk2]; subst.
  cbn [held flat_map view]. rewrite filter_app. fold (held hs). rewrite IH by assumption.
  destruct (Z.eqb_spec (h_ts h) ts) as [E|E].
  - rewrite view_gt by (subst ts; assumption). cbn [vheld]. rewrite app_nil_r.
    unfold hold_ok in Hk1. clear -Hk1 E. induction Hk1 as [|e l He _ IHl]; [reflexivity|].
    cbn. unfold at_ts at 1. rewrite He, E, Z.eqb_refl, IHl. reflexivity.
  - replace (filter (at_ts ts) (h_events h)) with (@nil event); [reflexivity|].
    unfold hold_ok in Hk1. clear -Hk1 E. induction Hk1 as [|e l He _ IHl]; [reflexivity|].
    cbn. unfold at_ts at 1. rewrite He. destruct (Z.eqb_spec (h_ts h) ts); [contradiction|assumption].
Qed.

(** the abstract machine of one timestamp *)
Definition vstep (tol : nat) (ts : Z) (v : option (nat * list event)) (e : event) : option (nat * list event) * list event :=
  if is_timer_flush e then
    match v with
    | Some (a, l) => if tol <? a + 1 then (None, l) else (Some (a + 1, l), [])
    | None => (None, [])
    end
  else if at_ts ts e then
    (match v with Some (a, l) => Some (a, l ++ [e]) | None => Some (0, [e]) end, [])
  else (v, []).

Lemma fb_release_eq tol hs :
  fb_release tol hs = (flat_map h_events (filter (fun h => tol <? h_age h) hs), filter (fun h => negb (tol <? h_age h)) hs).
Proof.
  induction hs as [|h hs IH]; [reflexivity|]. cbn [fb_release filter]. rewrite IH.
  destruct (tol <? h_age h); reflexivity.
Qed.

Lemma sorted_filter p hs : StronglySorted Z.lt (map h_ts hs) -> StronglySorted Z.lt (map h_ts (filter p hs)).
Proof.
  induction hs as [|h hs IH]; intros H; [constructor|]. inversion H as [|? ? H1 H2]; subst. cbn [filter].
  destruct (p h); [|auto]. cbn. constructor; [auto|]. rewrite Forall_map in *. rewrite Forall_forall in *.
  intros x Hx. apply filter_In in Hx. apply H2; tauto.
Qed.
Lemma Forall_filter' {A} (P : A -> Prop) p l : Forall P l -> Forall P (filter p l).
Proof. rewrite !Forall_forall. intros H x Hx. apply filter_In in Hx. apply H; tauto. Qed.

Lemma view_filter ts p hs : StronglySorted Z.lt (map h_ts hs) ->
  view ts (filter p hs) = match find (fun h => Z.eqb (h_ts h) ts) hs with
                          | Some h => if p h then Some (h_age h, h_events h) else None
                          | None => None end.
Proof.
  induction hs as [|h hs IH]; intros H; [reflexivity|]. pose proof (sorted_gt _ _ H) as Hg.
  inversion H as [|? ? H1 _]; subst. cbn [filter find].
  destruct (Z.eqb_spec (h_ts h) ts) as [E|E].
  - destruct (p h).
    + cbn. subst ts. rewrite Z.eqb_refl. reflexivity.
    + rewrite view_gt; [reflexivity|]. apply Forall_filter'. subst ts; assumption.
  - destruct (p h); [|auto]. cbn. destruct (Z.eqb_spec (h_ts h) ts); [contradiction|auto].
Qed.
Lemma view_find ts hs : view ts hs = match find (fun h => Z.eqb (h_ts h) ts) hs with Some h => Some (h_age h, h_events h) | None => None end.
Proof. induction hs as [|h hs IH]; [reflexivity|]. cbn. destruct (Z.eqb _ _); auto. Qed.

Definition age_one (h : hold) : hold := mkHold (h_ts h) (h_age h + 1) (h_events h).
Lemma find_aged ts hs : find (fun h => Z.eqb (h_ts h) ts) (map age_one hs) = option_map age_one (find (fun h => Z.eqb (h_ts h) ts) hs).
Proof. induction hs as [|h hs IH]; [reflexivity|]. cbn. destruct (Z.eqb _ _); auto. Qed.

Lemma fb_inv_aged hs : fb_inv hs -> fb_inv (map age_one hs).
Proof.
  intros [H1 H2]. split; [rewrite map_map; exact H1|]. rewrite Forall_map. exact H2.
Qed.

Lemma inv_order hs : fb_inv hs -> in_ts_order (held hs).
Proof.
  intros [Hs Hk]. exists (flat_map (fun h => map (fun _ => h_ts h) (h_events h)) hs). split.
  - induction hs as [|h hs IH]; [reflexivity|]. inversion Hs; subst. inversion Hk as [|? ? K1 K2]; subst. cbn.
    rewrite !map_app. fold (held hs). rewrite IH by assumption. f_equal.
    unfold hold_ok in K1. clear -K1. induction K1 as [|e l He _ IHl]; [reflexivity|]. cbn. rewrite He, IHl. reflexivity.
  - induction hs as [|h hs IH]; [constructor|]. pose proof (sorted_gt _ _ Hs) as Hg.
    inversion Hs; subst. inversion Hk; subst. cbn. specialize (IH ltac:(assumption) ltac:(assumption)).
    assert (Hall : Forall (Z.le (h_ts h)) (flat_map (fun h => map (fun _ => h_ts h) (h_events h)) hs)).
    { rewrite Forall_forall in *. intros z Hz. apply in_flat_map in Hz as (x & Hx & Hz).
      apply in_map_iff in Hz as (? & <- & _). specialize (Hg x Hx). lia. }
    induction (h_events h) as [|e l IHl]; [exact IH|]. cbn. constructor; [exact IHl|].
    rewrite Forall_app. split; [|exact Hall]. clear. induction l; cbn; constructor; [lia|assumption].
Qed.

Lemma fb_step tol hs e : fb_inv hs ->
  fb_inv (fst (fb_process tol hs e)) /\
  (forall ts, vstep tol ts (view ts hs) e =
     (view ts (fst (fb_process tol hs e)), filter (at_ts ts) (snd (fb_process tol hs e)))) /\
  (is_timer_flush e = false -> snd (fb_process tol hs e) = []) /\
  (is_timer_flush e = true -> exists l, snd (fb_process tol hs e) = l ++ [e] /\ in_ts_order l).
Proof.
  intros HI. unfold fb_process. destruct (is_timer_flush e) eqn:Ef.
  - change (map (fun h => mkHold (h_ts h) (h_age h + 1) (h_events h)) hs) with (map age_one hs).
    pose proof (fb_inv_aged _ HI) as [A1 A2]. rewrite fb_release_eq. cbn [fst snd].
    assert (Hsel : forall p, fb_inv (filter p (map age_one hs))) by (intros p; split; [apply sorted_filter|apply Forall_filter']; assumption).
    split; [apply Hsel|]. split; [|split; [discriminate|]].
    + intros ts. rewrite filter_app. change (flat_map h_events) with held.
      rewrite held_view by apply Hsel. rewrite !view_filter by assumption. rewrite find_aged.
      unfold vstep. rewrite Ef, view_find.
      assert (Hn : filter (at_ts ts) [e] = []) by (destruct e; try discriminate Ef; reflexivity).
      rewrite Hn, app_nil_r.
      destruct (find (fun h => Z.eqb (h_ts h) ts) hs) as [h|]; cbn [option_map]; [|reflexivity].
      cbn [h_age h_events age_one]. destruct (tol <? h_age h + 1); reflexivity.
    + intros _. eexists. split; [reflexivity|]. apply inv_order, Hsel.
  - destruct HI as [Hs Hk]. destruct (e_timestamp e) as [t|] eqn:Et.
    + destruct (fb_split hs t Hs) as [(l1 & l2 & -> & H1 & H2)|(l1 & h & l2 & -> & Hh & H1 & H2)].
      * unfold fb_search. rewrite bsearch_none.
        2:{ eapply Forall_impl; [|exact H1]. cbn; intros a Ha. apply Z.compare_lt_iff; assumption. }
        2:{ eapply Forall_impl; [|exact H2]. cbn; intros a Ha. apply Z.compare_gt_iff; assumption. }
        rewrite insert_at_app. cbn [fst snd]. split; [|split; [|split; [reflexivity|discriminate]]].
        -- split.
           ++ rewrite map_app in *. cbn [map h_ts]. apply sorted_app_iff in Hs as (B1 & B2 & B3).
              apply sorted_app_iff. split; [assumption|]. split.
              ** constructor; [assumption|]. rewrite Forall_map. assumption.
              ** rewrite Forall_map in *. rewrite Forall_forall in *. intros x Hx. constructor; [apply (H1 x Hx)|apply (B3 x Hx)].
           ++ rewrite Forall_app in *. destruct Hk. split; [assumption|]. constructor; [|assumption].
              constructor; [exact Et|constructor].
        -- intros ts. unfold vstep. rewrite Ef. unfold at_ts at 1. rewrite Et. rewrite !view_app. cbn [view h_ts h_age h_events].
           destruct (Z.eqb_spec t ts) as [<-|E].
           ++ rewrite view_lt, view_gt by assumption. reflexivity.
           ++ cbn [filter]. destruct (view ts l1); reflexivity.
      * unfold fb_search. rewrite bsearch_one.
        2:{ eapply Forall_impl; [|exact H1]. cbn; intros a Ha. apply Z.compare_lt_iff; assumption. }
        2:{ apply Z.compare_eq_iff; assumption. }
        2:{ eapply Forall_impl; [|exact H2]. cbn; intros a Ha. apply Z.compare_gt_iff; assumption. }
        rewrite update_at_app. cbn [fst snd]. split; [|split; [|split; [reflexivity|discriminate]]].
        -- split.
           ++ rewrite map_app in *. exact Hs.
           ++ rewrite Forall_app in *. destruct Hk as [K1 K2]. inversion K2; subst. split; [assumption|]. constructor; [|assumption].
              unfold hold_ok in *. cbn. rewrite Forall_app. split; [assumption|]. constructor; [exact Et|constructor].
        -- intros ts. unfold vstep. rewrite Ef. unfold at_ts at 1. rewrite Et. rewrite !view_app. cbn [view h_ts h_age h_events].
           destruct (Z.eqb_spec t ts) as [<-|E].
           ++ rewrite view_lt by assumption. rewrite Hh, Z.eqb_refl. reflexivity.
           ++ rewrite Hh. destruct (Z.eqb_spec t ts); [contradiction|]. cbn [filter]. destruct (view ts l1); reflexivity.
    + cbn [fst snd]. split; [split; assumption|]. split; [|split; [reflexivity|discriminate]].
      intros ts. unfold vstep. rewrite Ef. unfold at_ts; rewrite Et. reflexivity.
Qed.

Fixpoint vrun (tol : nat) (ts : Z) (v : option (nat * list event)) (evs : list event) : option (nat * list event) * list event :=
  match evs with
  | [] => (v, [])
  | e :: r => let '(v', o) := vstep tol ts v e in let '(v'', os) := vrun tol ts v' r in (v'', o ++ os)
  end.

Lemma fb_run_cons tol hs e evs : fb_run tol hs (e :: evs) =
  (fst (fb_run tol (fst (fb_process tol hs e)) evs),
   snd (fb_process tol hs e) :: snd (fb_run tol (fst (fb_process tol hs e)) evs)).
Proof. cbn [fb_run]. destruct (fb_process tol hs e) as [h o]. cbn [fst snd]. destruct (fb_run tol h evs). reflexivity. Qed.

Lemma fb_run_view tol evs : forall hs, fb_inv hs ->
  fb_inv (fst (fb_run tol hs evs)) /\
  (forall ts, vrun tol ts (view ts hs) evs =
     (view ts (fst (fb_run tol hs evs)), filter (at_ts ts) (List.concat (snd (fb_run tol hs evs))))) /\
  filter is_timer_flush (List.concat (snd (fb_run tol hs evs))) = filter is_timer_flush evs /\
  Forall2 (fun e out => (is_timer_flush e = false -> out = []) /\
                        (is_timer_flush e = true -> exists l, out = l ++ [e] /\ in_ts_order l)) evs (snd (fb_run tol hs evs)).
Proof.
  induction evs as [|e evs IH]; intros hs HI.
  - cbn. repeat split; auto; apply HI.
  - rewrite fb_run_cons. cbn [fst snd]. destruct (fb_step tol hs e HI) as (S1 & S2 & S3 & S4).
    destruct (IH _ S1) as (I1 & I2 & I3 & I4). split; [exact I1|]. split; [|split].
    + intros ts. cbn [vrun List.concat]. rewrite S2, I2, filter_app. reflexivity.
    + cbn [List.concat filter]. rewrite filter_app, I3.
      destruct (is_timer_flush e) eqn:Ef.
      * destruct (S4 eq_refl) as (l & -> & (tss & Hl & _)). rewrite filter_app. cbn [filter]. rewrite Ef.
        replace (filter is_timer_flush l) with (@nil event); [reflexivity|].
        clear -Hl. revert tss Hl. induction l as [|x l IHl]; intros [|t tss] H; try discriminate; [reflexivity|].
        cbn in H. inversion H as [[H1 H2]]. destruct x; try discriminate H1; cbn; eapply IHl; eassumption.
      * rewrite S3 by reflexivity. reflexivity.
    + constructor; [split; assumption|assumption].
Qed.

Lemma vrun_conserves tol ts evs : forall v,
  vheld v ++ filter (at_ts ts) evs = snd (vrun tol ts v evs) ++ vheld (fst (vrun tol ts v evs)).
Proof.
  induction evs as [|e evs IH]; intros v; [cbn; rewrite app_nil_r; reflexivity|].
  cbn [vrun]. destruct (vstep tol ts v e) as [v' o] eqn:Es. specialize (IH v').
  destruct (vrun tol ts v' evs) as [v'' os]. cbn [fst snd] in *. rewrite <- app_assoc, <- IH.
  unfold vstep in Es. destruct (is_timer_flush e) eqn:Ef.
  - assert (Ha : at_ts ts e = false) by (destruct e; try discriminate; reflexivity). cbn [filter]. rewrite Ha.
    destruct v as [[a l]|]; [destruct (tol <? a + 1)|]; inversion Es; subst; reflexivity.
  - cbn [filter]. destruct (at_ts ts e); inversion Es; subst; [|reflexivity].
    destruct v as [[a l]|]; cbn; rewrite <- ?app_assoc; reflexivity.
Qed.

Lemma flushes_cons e l : flushes (e :: l) = (if is_timer_flush e then 1 else 0) + flushes l.
Proof. unfold flushes; cbn. destruct (is_timer_flush e); reflexivity. Qed.

(** a hold of age a stays for [tol - a] more flushes *)
Lemma vrun_keeps tol ts evs : forall a l, a + flushes evs <= tol ->
  vrun tol ts (Some (a, l)) evs = (Some (a + flushes evs, l ++ filter (at_ts ts) evs), []).
Proof.
  induction evs as [|e evs IH]; intros a l H; [cbn; rewrite app_nil_r, Nat.add_0_r; reflexivity|].
  rewrite flushes_cons in *. cbn [vrun filter]. unfold vstep.
  destruct (is_timer_flush e) eqn:Ef.
  - assert (Ha : at_ts ts e = false) by (destruct e; try discriminate; reflexivity). rewrite Ha.
    destruct (Nat.ltb_spec tol (a + 1)); [lia|]. rewrite IH by lia. cbn. f_equal. f_equal. f_equal. lia.
  - destruct (at_ts ts e); rewrite IH by lia; cbn; rewrite <- ?app_assoc; reflexivity.
Qed.

Lemma fb_run_app tol a b : forall hs, fb_run tol hs (a ++ b) =
  (fst (fb_run tol (fst (fb_run tol hs a)) b), snd (fb_run tol hs a) ++ snd (fb_run tol (fst (fb_run tol hs a)) b)).
Proof.
  induction a as [|e a IH]; intros hs.
  - cbn [app fb_run fst snd]. destruct (fb_run tol hs b); reflexivity.
  - cbn [app]. rewrite !fb_run_cons. cbn [fst snd]. rewrite IH. reflexivity.
Qed.

Lemma fb_inv_nil : fb_inv [].
Proof. split; constructor. Qed.

Lemma view_empty ts hs : fb_inv hs -> filter (at_ts ts) (held hs) = [] ->
  view ts hs = None \/ exists a, view ts hs = Some (a, []).
Proof. intros H. rewrite held_view by assumption. destruct (view ts hs) as [[a l]|]; cbn; [intros ->; right; eauto|auto]. Qed.

(** holds are never empty *)
Definition nonempty (hs : list hold) : Prop := Forall (fun h => h_events h <> []) hs.
Lemma view_nonempty ts hs : nonempty hs -> view ts hs <> None -> vheld (view ts hs) <> [].
Proof. induction 1 as [|h hs H _ IH]; cbn; [congruence|]. destruct (Z.eqb _ _); auto. Qed.
Lemma fb_nonempty tol hs e : fb_inv hs -> nonempty hs -> nonempty (fst (fb_process tol hs e)).
Proof.
  intros [Hs _] H. unfold fb_process. destruct (is_timer_flush e).
  - rewrite fb_release_eq. cbn [fst]. apply Forall_filter'. unfold nonempty. rewrite Forall_map. exact H.
  - destruct (e_timestamp e) as [t|]; [|exact H].
    destruct (fb_split hs t Hs) as [(l1 & l2 & -> & H1 & H2)|(l1 & h & l2 & -> & Hh & H1 & H2)]; unfold fb_search.
    + rewrite bsearch_none.
      2:{ eapply Forall_impl; [|exact H1]. cbn; intros a Ha. apply Z.compare_lt_iff; assumption. }
      2:{ eapply Forall_impl; [|exact H2]. cbn; intros a Ha. apply Z.compare_gt_iff; assumption. }
      rewrite insert_at_app. cbn [fst]. unfold nonempty in *. rewrite Forall_app in *. destruct H; split; auto.
      constructor; [discriminate|assumption].
    + rewrite bsearch_one.
      2:{ eapply Forall_impl; [|exact H1]. cbn; intros a Ha. apply Z.compare_lt_iff; assumption. }
      2:{ apply Z.compare_eq_iff; assumption. }
      2:{ eapply Forall_impl; [|exact H2]. cbn; intros a Ha. apply Z.compare_gt_iff; assumption. }
      rewrite update_at_app. cbn [fst]. unfold nonempty in *. rewrite Forall_app in *. destruct H as [Ha Hb]. inversion Hb; subst.
      split; auto. constructor; [|assumption]. cbn. destruct (h_events h); discriminate.
Qed.
Lemma fb_run_nonempty tol evs : forall hs, fb_inv hs -> nonempty hs -> nonempty (fst (fb_run tol hs evs)).
Proof.
  induction evs as [|e evs IH]; intros hs HI H; [exact H|]. rewrite fb_run_cons. cbn [fst].
  apply IH; [apply fb_step; assumption|apply fb_nonempty; assumption].
Qed.

(** the life of a hold *)
Lemma fb_life tol pre e mid ts :
  e_timestamp e = Some ts ->
  filter (at_ts ts) (held (fst (fb_run tol [] pre))) = [] ->
  flushes mid <= tol ->
  filter (at_ts ts) (List.concat (snd (fb_run tol (fst (fb_run tol [] pre)) (e :: mid)))) = [] /\
  filter (at_ts ts) (held (fst (fb_run tol [] (pre ++ e :: mid)))) = filter (at_ts ts) (e :: mid) /\
  (flushes mid = tol -> forall i,
     filter (at_ts ts) (snd (fb_process tol (fst (fb_run tol [] (pre ++ e :: mid))) (ETimerFlush i))) = filter (at_ts ts) (e :: mid) /\
     filter (at_ts ts) (held (fst (fb_process tol (fst (fb_run tol [] (pre ++ e :: mid))) (ETimerFlush i)))) = []).
Proof.
  intros Ht H0 Hf.
  assert (Ef : is_timer_flush e = false) by (destruct e; try discriminate Ht; reflexivity).
  assert (Ha : at_ts ts e = true) by (unfold at_ts; rewrite Ht; apply Z.eqb_refl).
  destruct (fb_run_view tol pre [] fb_inv_nil) as (P1 & _).
  assert (Pn : nonempty (fst (fb_run tol [] pre))) by (apply fb_run_nonempty; [apply fb_inv_nil|constructor]).
  rewrite fb_run_app. cbn [fst]. set (hs := fst (fb_run tol [] pre)) in *.
  assert (Hv : view ts hs = None).
  { destruct (view ts hs) eqn:E; [|reflexivity]. exfalso.
    apply (view_nonempty ts hs Pn); [congruence|]. rewrite <- held_view by assumption. exact H0. }
  destruct (fb_run_view tol (e :: mid) hs P1) as (I1 & I2 & _). specialize (I2 ts).
  rewrite Hv in I2. cbn [vrun] in I2. unfold vstep in I2. rewrite Ef, Ha in I2.
  rewrite vrun_keeps in I2 by lia. cbn [Nat.add app] in I2. pose proof (f_equal fst I2) as V1. pose proof (f_equal snd I2) as V2. cbn [fst snd] in V1, V2.
  split; [symmetry; exact V2|]. split.
  - rewrite held_view by assumption. rewrite <- V1. cbn [vheld filter]. rewrite Ha. reflexivity.
  - intros Hm i. destruct (fb_step tol (fst (fb_run tol hs (e :: mid))) (ETimerFlush i) I1) as (S1 & S2 & _).
    specialize (S2 ts). rewrite <- V1 in S2. unfold vstep in S2. cbn [is_timer_flush] in S2.
    destruct (Nat.ltb_spec tol (flushes mid + 1)); [|lia].
    pose proof (f_equal fst S2) as W1. pose proof (f_equal snd S2) as W2. cbn [fst snd] in W1, W2.
    rewrite held_view by assumption. rewrite <- W1, <- W2. split; [|reflexivity]. cbn [filter]. rewrite Ha. reflexivity.
Qed.

(** ** JSON *)
Lemma jmerge1_lookup obj : forall result k,
  alookup seqb k (jmerge1 result obj) = match alookup seqb k result with Some v => Some v | None => alookup seqb k obj end.
Proof.
  induction obj as [|[k' v'] obj IH]; intros result k; unfold jmerge1 in *; cbn [fold_left fst snd].
  - cbn. destruct (alookup seqb k result); reflexivity.
  - rewrite IH. cbn [alookup]. unfold amem. destruct (seqb k k') eqn:E.
    + apply seqb_eq in E; subst k'. destruct (alookup seqb k result) eqn:E1; [rewrite E1; reflexivity|].
      rewrite alookup_ainsert_eq by apply seqb_eq. reflexivity.
    + assert (Hn : k' <> k) by (intros ->; unfold seqb in E; rewrite String.eqb_refl in E; discriminate).
      destruct (alookup seqb k' result) eqn:E1; [reflexivity|].
      rewrite alookup_ainsert_ne by (auto using seqb_eq || (intros; apply seqb_eq)). reflexivity.
Qed.
Lemma merge_lookup objs k : alookup seqb k (merge_objects objs) = first_of objs k.
Proof.
  unfold merge_objects.
  assert (G : forall objs r, alookup seqb k (fold_left jmerge1 objs r) = match alookup seqb k r with Some v => Some v | None => first_of objs k end).
  { clear objs. induction objs as [|o objs IH]; intros r; cbn [fold_left first_of].
    - destruct (alookup seqb k r); reflexivity.
    - rewrite IH, jmerge1_lookup. destruct (alookup seqb k r); [reflexivity|]. destruct (alookup seqb k o); reflexivity. }
  apply G.
Qed.
Lemma jmerge1_nodup obj : forall r, jobj_ok r -> jobj_ok (jmerge1 r obj).
Proof.
  induction obj as [|[k v] obj IH]; intros r H; [exact H|]. unfold jmerge1 in *; cbn [fold_left fst snd]. apply IH.
  destruct (amem seqb k r); [exact H|]. apply ainsert_NoDup; [apply seqb_eq|exact H].
Qed.
Lemma merge_nodup objs : jobj_ok (merge_objects objs).
Proof.
  unfold merge_objects. assert (H : jobj_ok []) by constructor. revert H. generalize (@nil (string * jvalue)).
  induction objs as [|o objs IH]; intros r H; [exact H|]. cbn. apply IH, jmerge1_nodup, H.
Qed.
(** from_iter of a map with distinct keys is that map *)
Lemma jfrom_iter_lookup l : NoDup (map fst l) -> forall k, alookup seqb k (jfrom_iter l) = alookup seqb k l.
Proof.
  intros Hn k. unfold jfrom_iter.
  assert (G : forall m, alookup seqb k (fold_left (fun m kv => ainsert seqb (fst kv) (snd kv) m) l m) =
     match alookup seqb k l with Some v => Some v | None => alookup seqb k m end).
  { induction l as [|[k' v'] l IH]; intros m; cbn [fold_left alookup fst snd]; [reflexivity|].
    inversion Hn as [|? ? H1 H2]; subst. rewrite IH by assumption.
    destruct (seqb k k') eqn:E.
    - apply seqb_eq in E; subst k'. destruct (alookup seqb k l) eqn:E1.
      + exfalso. apply H1. apply (alookup_In seqb seqb_eq) in E1. apply in_map_iff. exists (k, j); auto.
      + apply alookup_ainsert_eq, seqb_eq.
    - destruct (alookup seqb k l); [reflexivity|]. apply alookup_ainsert_ne; [apply seqb_eq|].
      intros ->. unfold seqb in E. rewrite String.eqb_refl in E; discriminate. }
  rewrite G. destruct (alookup seqb k l); reflexivity.
Qed.

(** lookup in what the tag iterator yields *)
Lemma alookup_app {V} k (a b : list (string * V)) :
  alookup seqb k (a ++ b) = match alookup seqb k a with Some v => Some v | None => alookup seqb k b end.
Proof. induction a as [|[x v] a IH]; cbn; [reflexivity|]. destruct (seqb k x); auto. Qed.
Lemma defaults_lookup k d : forall seen,
  alookup seqb k (tag_iter_defaults seen d) = if existsb (seqb k) seen then None else alookup seqb k d.
Proof.
  induction d as [|[x v] d IH]; intros seen; cbn [tag_iter_defaults].
  - destruct (existsb _ _); reflexivity.
  - destruct (existsb (seqb x) seen) eqn:Es.
    + rewrite IH. cbn [alookup]. destruct (seqb k x) eqn:Ek; [|reflexivity].
      apply seqb_eq in Ek; subst x. rewrite Es. reflexivity.
    + cbn [alookup]. rewrite IH. cbn [existsb]. destruct (seqb k x) eqn:Ek; [|reflexivity].
      apply seqb_eq in Ek; subst x. rewrite Es. reflexivity.
Qed.
Lemma tag_iter_lookup own d k :
  alookup seqb k (tag_iter own d) = match match own with Some o => tm_get k o | None => None end with
                                    | Some v => Some v | None => tm_get k d end.
Proof.
  destruct own as [o|]; cbn [tag_iter]; [|reflexivity]. rewrite tag_iter_double_app, app_nil_r, alookup_app, defaults_lookup.
  unfold tm_get. destruct (alookup seqb k o) eqn:E; [reflexivity|].
  apply (alookup_None seqb seqb_eq) in E.
  destruct (existsb (seqb k) (rev (map fst o))) eqn:Ee; [|reflexivity].
  exfalso. apply existsb_exists in Ee as (x & Hx & Hk). apply seqb_eq in Hk; subst x. apply in_rev in Hx. contradiction.
Qed.

(** ** Programmable filter *)
Lemma fi_map_log ls : flush_indices (map ELog ls) = [].
Proof. induction ls; auto. Qed.
Lemma fi_map_telem ls : flush_indices (map ETelemetry ls) = [].
Proof. induction ls; auto. Qed.
Lemma fi_app a b : flush_indices (a ++ b) = flush_indices a ++ flush_indices b.
Proof. apply flat_map_app. Qed.

Lemma run_lua_fi S path now st f ms ls : flush_indices (snd (fst (run_lua S path now st f ms ls))) = [].
Proof.
  unfold run_lua. destruct (sc_call S st f ms ls) as [st' [| |logs metrics]]; cbn [fst snd]; try reflexivity.
  rewrite fi_app, fi_map_log, fi_map_telem. reflexivity.
Qed.
Lemma run_lua_err S path now st f ms ls fe : snd (run_lua S path now st f ms ls) = Some fe ->
  fe = failure_event path f now /\ snd (fst (run_lua S path now st f ms ls)) = [].
Proof.
  unfold run_lua. destruct (sc_call S st f ms ls) as [st' [| |logs metrics]]; cbn; intros [= <-]; auto.
Qed.
Lemma run_lua_err_fi S path now st f ms ls :
  flush_indices (match snd (run_lua S path now st f ms ls) with
                 | None => snd (fst (run_lua S path now st f ms ls)) | Some fe => [fe] end) = [].
Proof.
  destruct (snd (run_lua S path now st f ms ls)) eqn:E; [|apply run_lua_fi].
  apply run_lua_err in E as [-> _]. reflexivity.
Qed.
Lemma tick_ok S path now st : tick_succeeds S -> snd (run_lua S path now st "tick" [] []) = None.
Proof.
  intros H. unfold run_lua. destruct (H st [] []) as (l & m & E). destruct (sc_call S st "tick" [] []) as [st' o].
  cbn in E; subst o. reflexivity.
Qed.

Lemma prog_flushes S path now evs : tick_succeeds S -> forall p : prog S,
  flush_indices (outputs (prog_filt S path now) p evs) = records (pg_last p) (flush_indices evs).
Proof.
  intros Ht. induction evs as [|e evs IH]; intros p; [reflexivity|].
  destruct e as [t|l|i| |r]; cbn [outputs f_process prog_filt prog_process].
  - pose proof (run_lua_err_fi S path now (pg_lua p) "process_metric" [t] []) as He.
    destruct (run_lua S path now (pg_lua p) "process_metric" [t] []) as [[st out] err]. cbn [fst snd] in *.
    rewrite fi_app, IH, He. reflexivity.
  - pose proof (run_lua_err_fi S path now (pg_lua p) "process_log" [] [l]) as He.
    destruct (run_lua S path now (pg_lua p) "process_log" [] [l]) as [[st out] err]. cbn [fst snd] in *.
    rewrite fi_app, IH, He. reflexivity.
  - cbn [flush_indices flat_map app records]. destruct (N.leb_spec i (pg_last p)) as [Hi|Hi].
    + destruct (N.ltb_spec (pg_last p) i); [lia|]. cbn [app]. apply IH.
    + destruct (N.ltb_spec (pg_last p) i); [|lia].
      pose proof (tick_ok S path now (pg_lua p) Ht) as Hok.
      pose proof (run_lua_fi S path now (pg_lua p) "tick" [] []) as He.
      destruct (run_lua S path now (pg_lua p) "tick" [] []) as [[st out] err]. cbn [fst snd] in *. subst err.
      rewrite !fi_app, IH, He. reflexivity.
  - cbn [flush_indices flat_map app]. apply IH.
  - cbn [flush_indices flat_map app]. apply IH.
Qed.

Lemma records_above l : forall top, Forall (fun i => (top < i)%N) (records top l).
Proof.
  induction l as [|i l IH]; intros top; cbn [records]; [constructor|].
  destruct (N.ltb_spec top i); [|apply IH]. constructor; [assumption|].
  eapply Forall_impl; [|apply IH]. cbn; intros; lia.
Qed.
Lemma records_sorted l : forall top, StronglySorted N.lt (records top l).
Proof.
  induction l as [|i l IH]; intros top; cbn [records]; [constructor|].
  destruct (top <? i)%N; [|apply IH]. constructor; [apply IH|]. apply records_above.
Qed.
End Proofs.
