(** * Proofs for BinsSpec. *)
From Verif Require Import Base BaseFacts TelemetryModel TelemetryProofs BucketsModel BucketsSpec BucketsProofs BinsSpec.
From Coq Require Import Lia.
Open Scope list_scope.

Lemma final_snoc {A} (l : list A) x : final (l ++ [x]) = Some x.
Proof. unfold final. rewrite rev_app_distr. reflexivity. Qed.
Lemma final_none {A} (l : list A) : final l = None <-> l = [].
Proof. destruct l as [|x l] using rev_ind; [cbn; tauto|]. rewrite final_snoc. split; [discriminate|]. intros H. apply app_eq_nil in H as [_ H]. discriminate. Qed.
Lemma final_cons {A} (x : A) l : final (x :: l) = Some (match final l with Some y => y | None => x end).
Proof. destruct l as [|y l] using rev_ind; [reflexivity|]. rewrite final_snoc, app_comm_cons, final_snoc. reflexivity. Qed.
Lemma final_In {A} (l : list A) x : final l = Some x -> In x l.
Proof. destruct l as [|y l] using rev_ind; [discriminate|]. rewrite final_snoc. intros [= ->]. apply in_or_app. right. left. reflexivity. Qed.

Section Proofs.
Context `{Q : QLib}.
Variable w : Z.

Lemma cell_here s k t : here w s k t = true <-> cell w t = (s, k).
Proof. rewrite here_iff. unfold cell. split; [intros [-> ->]; reflexivity|intros [= -> ->]; auto]. Qed.
Lemma here_false s k t : here w s k t = false -> s <> series_key t \/ k <> pbin w t.
Proof.
  intros H. destruct (list_eq_dec string_dec (series_key t) s) as [E1|E1]; [|left; congruence]. destruct (Z.eq_dec (pbin w t) k) as [E2|E2]; [|right; congruence].
  assert (here w s k t = true) by (apply here_iff; auto). congruence.
Qed.
Lemma add_cell M t M1 s k : add_spec w M t M1 ->
  if here w s k t then exists p, M1 s k = Some p /\ t_persist p = t_persist t else M1 s k = M s k.
Proof.
  intros H. destruct (here w s k t) eqn:E.
  - apply here_iff in E as [<- <-]. destruct H as [p H1 [H2 _]|k' p _ H1 _ _ _ [H2 _]|H1 _ [H2 _]]; rewrite H2; eexists; split; try reflexivity.
  - apply here_false in E. destruct H as [p _ [_ H2]|k' p _ _ _ _ _ [_ H2]|_ _ [_ H2]]; apply H2; assumption.
Qed.
Lemma adds_cell ts : forall M M' s k, run_spec w M (map BAdd ts) M' ->
  match final (filter (here w s k) ts) with
  | Some t => exists p, M' s k = Some p /\ t_persist p = t_persist t
  | None => M' s k = M s k
  end.
Proof.
  induction ts as [|t ts IH]; intros M M' s k Hrun; [inversion Hrun; reflexivity|].
  inversion Hrun as [|? ? M1 ? ? Hop Hrun']; subst. specialize (IH _ _ s k Hrun'). assert (A := add_cell M t M1 s k Hop). cbn [filter].
  destruct (here w s k t).
  - rewrite final_cons. destruct (final (filter (here w s k) ts)); [exact IH|]. rewrite IH. exact A.
  - destruct (final (filter (here w s k) ts)); [exact IH|]. congruence.
Qed.
Lemma filter_here_some ts s k : (exists t, final (filter (here w s k) ts) = Some t) <-> exists t, In t ts /\ cell w t = (s, k).
Proof.
  split.
  - intros (t & H). apply final_In, filter_In in H as [H1 H2]. exists t. split; [exact H1|]. apply cell_here. exact H2.
  - intros (t & H1 & H2). destruct (final (filter (here w s k) ts)) eqn:E; [eauto|]. apply final_none in E. exfalso.
    assert (In t (filter (here w s k) ts)) by (apply filter_In; split; [exact H1|apply cell_here; exact H2]). rewrite E in H. destruct H.
Qed.
Lemma run_spec_app os os' : forall M M', run_spec w M (os ++ os') M' <-> exists M1, run_spec w M os M1 /\ run_spec w M1 os' M'.
Proof.
  induction os as [|o os IH]; intros M M'; cbn.
  - split; [intros H; exists M; split; [constructor|exact H]|]. intros (M1 & H1 & H2). inversion H1; subst. exact H2.
  - split.
    + intros H. inversion H; subst. match goal with H : run_spec w _ (os ++ os') _ |- _ => apply IH in H as (M1' & H1 & H2) end. exists M1'. split; [|exact H2]. econstructor; eassumption.
    + intros (M1 & H1 & H2). inversion H1; subst. econstructor; [eassumption|]. apply IH. eauto.
Qed.

(** resets *)
Lemma reset_once M now M' : reset_spec w M now M' ->
  (forall s k p, M' s k = Some p -> t_persist p = true) /\ (forall s k k' p p', M' s k = Some p -> M' s k' = Some p' -> k = k') /\
  (forall s, (exists k p, M' s k = Some p) <-> exists k p, newest M s k p /\ t_persist p = true).
Proof.
  intros H. split; [|split].
  - intros s k p E. apply H in E as (_ & k0 & q & _ & Hq & ->). exact Hq.
  - intros s k k' p p' E E'. apply H in E as (-> & _). apply H in E' as (-> & _). reflexivity.
  - intros s. split.
    + intros (k & p & E). apply H in E as (_ & k0 & q & H1 & H2 & _). eauto.
    + intros (k & p & H1 & H2). exists (tbin w now), (t_set_timestamp now p). apply H. split; [reflexivity|]. eauto.
Qed.
Lemma resets_spec nows : forall M M', (forall s k p, M s k = Some p -> t_persist p = true) -> (forall s k k' p p', M s k = Some p -> M s k' = Some p' -> k = k') ->
  run_spec w M (map BReset nows) M' ->
  (forall s k p, M' s k = Some p -> t_persist p = true) /\ (forall s k k' p p', M' s k = Some p -> M' s k' = Some p' -> k = k') /\
  (forall s, (exists k p, M' s k = Some p) <-> exists k p, M s k = Some p).
Proof.
  induction nows as [|now nows IH]; intros M M' Hp Hu Hrun.
  - inversion Hrun; subst. split; [exact Hp|]. split; [exact Hu|reflexivity].
  - inversion Hrun as [|? ? M1 ? ? Hop Hrun']; subst. destruct (reset_once M now M1 Hop) as (R1 & R2 & R3). destruct (IH M1 M' R1 R2 Hrun') as (S1 & S2 & S3).
    split; [exact S1|]. split; [exact S2|]. intros s. rewrite S3, R3. split.
    + intros (k & p & (E & _) & _). eauto.
    + intros (k & p & E). exists k, p. split; [|eapply Hp; eassumption]. split; [exact E|]. intros j q Eq. rewrite (Hu _ _ _ _ _ E Eq). lia.
Qed.
Lemma survives_spec ts M : run_spec w empty_map (map BAdd ts) M -> forall s, (exists k p, newest M s k p /\ t_persist p = true) <-> survives w ts s.
Proof.
  intros Hrun s. assert (X := fun k => adds_cell ts empty_map M s k Hrun).
  assert (P : forall k, M s k <> None <-> exists t, In t ts /\ cell w t = (s, k)).
  { intros k. rewrite <- filter_here_some. specialize (X k). destruct (final (filter (here w s k) ts)) as [t|].
    - destruct X as (p & -> & _). split; [eauto|discriminate].
    - rewrite X. split; [intros H; contradiction H; reflexivity|intros (? & ?); discriminate]. }
  split.
  - intros (k & p & (E & Hmax) & Hp). destruct (proj1 (P k) ltac:(congruence)) as (t0 & T1 & T2). exists k.
    specialize (X k). destruct (final (filter (here w s k) ts)) as [t|] eqn:Ef; [|unfold empty_map in X; congruence]. destruct X as (q & Eq & Hq). assert (q = p) by congruence. subst q.
    exists t. split; [|split; [reflexivity|congruence]]. split; [eauto|]. intros a Ha Es.
    assert (N : M s (pbin w a) <> None) by (apply P; exists a; split; [exact Ha|unfold cell; congruence]). destruct (M s (pbin w a)) as [q|] eqn:E2; [|congruence]. eapply Hmax. exact E2.
  - intros (k & t & (H1 & H2) & H3 & H4). assert (Xk := X k). rewrite H3 in Xk. destruct Xk as (p & E & Hp). exists k, p. split; [|congruence]. split; [exact E|].
    intros j q Eq. destruct (proj1 (P j) ltac:(congruence)) as (a & Ha & Ec). unfold cell in Ec. assert (series_key a = s) by congruence. assert (pbin w a = j) by congruence. subst j. apply H2; assumption.
Qed.
Lemma newest_exists ts s : (exists t, In t ts /\ series_key t = s) -> exists k, newest_bin w ts s k.
Proof.
  induction ts as [|a ts IH]; intros (t & Ht & Es); [destruct Ht|]. destruct (list_eq_dec string_dec (series_key a) s) as [Ea|Ea].
  - destruct (in_dec (list_eq_dec string_dec) s (map series_key ts)) as [Hin|Hin].
    + apply in_map_iff in Hin as (u & Eu & Hu). destruct IH as (k & (c & Hc & Ec) & Hk); [eauto|]. exists (Z.max k (pbin w a)). split.
      * destruct (Z.max_spec k (pbin w a)) as [[_ ->]|[_ ->]]; [exists a; split; [left; reflexivity|unfold cell; congruence]|exists c; split; [right; exact Hc|exact Ec]].
      * intros x [<-|Hx] Ex; [lia|]. specialize (Hk x Hx Ex). lia.
    + exists (pbin w a). split; [exists a; split; [left; reflexivity|unfold cell; congruence]|]. intros x [<-|Hx] Ex; [lia|]. exfalso. apply Hin. apply in_map_iff. eauto.
  - destruct Ht as [<-|Ht]; [congruence|]. destruct IH as (k & (c & Hc & Ec) & Hk); [eauto|]. exists k. split; [exists c; split; [right; exact Hc|exact Ec]|]. intros x [<-|Hx] Ex; [congruence|auto].
Qed.
Lemma adds_resets nows : adds (map BReset nows) = [].
Proof. induction nows; [reflexivity|exact IHnows]. Qed.
Lemma run_resets hfun nows : forall b, b_run hfun b (map BReset nows) = Some (resets nows b).
Proof. induction nows as [|n ns IH]; intros b; [reflexivity|]. cbn. apply IH. Qed.
Lemma b_run_app hfun os os' : forall b, b_run hfun b (os ++ os') = match b_run hfun b os with Some b1 => b_run hfun b1 os' | None => None end.
Proof. induction os as [|o os IH]; intros b; [reflexivity|]. cbn. destruct (b_step hfun b o); [apply IH|reflexivity]. Qed.

(** in order and persisted: running totals *)
Lemma up_to_iff s k t : up_to w s k t = true <-> series_key t = s /\ (pbin w t <= k)%Z.
Proof. unfold up_to. rewrite andb_true_iff, Z.leb_le. destruct (list_eq_dec string_dec (series_key t) s) as [E|E]; intuition congruence. Qed.
Lemma total_snoc ts t : total (ts ++ [t]) = Some (match total ts with Some v => value_add v (t_value t) | None => t_value t end).
Proof. destruct ts as [|x ts]; [reflexivity|]. cbn. rewrite map_app, fold_left_app. reflexivity. Qed.
Lemma total_none ts : total ts = None <-> ts = [].
Proof. destruct ts; cbn; split; congruence. Qed.
Lemma in_order_snoc ts t : in_order w (ts ++ [t]) -> in_order w ts /\ forall a, In a ts -> series_key a = series_key t -> (pbin w a <= pbin w t)%Z.
Proof.
  intros H. split.
  - intros l1 a l2 b l3 E. apply (H l1 a l2 b (l3 ++ [t])). rewrite E, <- app_assoc. cbn. rewrite <- app_assoc. reflexivity.
  - intros a Ha. apply in_split in Ha as (l1 & l2 & ->). apply (H l1 a l2 t []). rewrite <- app_assoc. reflexivity.
Qed.
Lemma filter_ext_In' {A} (f g : A -> bool) l : (forall a, In a l -> f a = g a) -> filter f l = filter g l.
Proof. apply filter_ext_in. Qed.
Lemma running_run ts : in_order w ts -> Forall (fun t => t_persist t = true) ts -> forall M, run_spec w empty_map (map BAdd ts) M ->
  forall s k, (forall p, M s k = Some p -> total (filter (up_to w s k) ts) = Some (t_value p)) /\ (M s k <> None <-> exists t, In t ts /\ cell w t = (s, k)).
Proof.
  induction ts as [|t ts IH] using rev_ind; intros Ho Hp M Hrun s k.
  - inversion Hrun; subst. split; [discriminate|]. split; [intros H; contradiction H; reflexivity|intros (? & [] & _)].
  - rewrite map_app in Hrun. apply run_spec_app in Hrun as (M0 & H0 & H1). inversion H1 as [|? ? M1 ? ? Hop Hn]; subst. inversion Hn; subst. clear H1 Hn.
    apply in_order_snoc in Ho as (Ho & Hlast). apply Forall_app in Hp as (Hp & Hpt). inversion Hpt as [|? ? Ht _]; subst. specialize (IH Ho Hp M0 H0). cbn in Hop.
    assert (A := add_cell M0 t M s k Hop). rewrite filter_app. cbn [filter]. split.
    + intros p Ep. destruct (here w s k t) eqn:E.
      * apply here_iff in E as [<- <-]. rewrite (proj2 (up_to_iff _ _ t)) by (split; [reflexivity|lia]). rewrite total_snoc. f_equal.
        destruct Hop as [q H1 [H2 _]|k' q H1 _ Hk Hq Hg [H2 _]|H1 Hf [H2 _]]; rewrite H2 in Ep; injection Ep as <-; cbn [t_value t_add carried].
        -- destruct (IH (series_key t) (pbin w t)) as (IH1 & _). rewrite (IH1 q H1). reflexivity.
        -- destruct (IH (series_key t) k') as (IH1 & _). rewrite <- (filter_ext_In' (up_to w (series_key t) k')); [rewrite (IH1 q Hq); reflexivity|].
           intros a Ha. destruct (up_to w (series_key t) k' a) eqn:E1; symmetry.
           ++ apply up_to_iff in E1 as [E1 E2]. apply up_to_iff. split; [exact E1|lia].
           ++ destruct (up_to w (series_key t) (pbin w t) a) eqn:E2; [|reflexivity]. exfalso. apply up_to_iff in E2 as [E2 E3].
              assert (~ (pbin w a <= k')%Z) by (intros H; assert (up_to w (series_key t) k' a = true) by (apply up_to_iff; auto); congruence).
              assert (N : M0 (series_key t) (pbin w a) <> None) by (apply IH; exists a; split; [exact Ha|unfold cell; congruence]).
              destruct (Z.eq_dec (pbin w a) (pbin w t)) as [E4|E4]; [congruence|]. apply N. apply Hg. lia.
        -- assert (En : filter (up_to w (series_key t) (pbin w t)) ts = []).
           { destruct (filter _ ts) as [|a r] eqn:E1; [reflexivity|exfalso]. assert (Ha : In a (filter (up_to w (series_key t) (pbin w t)) ts)) by (rewrite E1; left; reflexivity). apply filter_In in Ha as (Ha & E2). apply up_to_iff in E2 as [E2 E3].
             assert (N : M0 (series_key t) (pbin w a) <> None) by (apply IH; exists a; split; [exact Ha|unfold cell; congruence]).
             destruct (Z.eq_dec (pbin w a) (pbin w t)) as [E4|E4]; [congruence|]. destruct Hf as [Hf|Hf]; [congruence|]. apply N. apply Hf. lia. }
           rewrite En. reflexivity.
      * rewrite A in Ep. destruct (IH s k) as (IH1 & IH2). replace (if up_to w s k t then [t] else []) with (@nil telemetry).
        { rewrite app_nil_r. apply IH1. exact Ep. }
        destruct (up_to w s k t) eqn:Eu; [exfalso|reflexivity]. apply up_to_iff in Eu as [<- Eu].
        destruct (proj1 IH2 ltac:(congruence)) as (a & Ha & Ec). assert (Ec1 : series_key a = series_key t) by (unfold cell in Ec; congruence). assert (Ec2 : pbin w a = k) by (unfold cell in Ec; congruence). specialize (Hlast a Ha Ec1). apply here_false in E. destruct E as [E|E]; [congruence|]. lia.
    + destruct (IH s k) as (_ & IH2). destruct (here w s k t) eqn:E.
      * destruct A as (p & -> & _). split; [|discriminate]. intros _. exists t. split; [apply in_or_app; right; left; reflexivity|]. apply cell_here. exact E.
      * rewrite A, IH2. split; intros (a & Ha & Ec).
        -- exists a. split; [apply in_or_app; left; exact Ha|exact Ec].
        -- apply in_app_or in Ha as [Ha|[<-|[]]]; [eauto|]. apply cell_here in Ec. congruence.
Qed.
End Proofs.
