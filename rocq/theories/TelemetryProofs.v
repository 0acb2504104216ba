From Verif Require Import Base BaseFacts TelemetryModel TelemetrySpec.

Section Values.
Context `{Q : QLib}.

Lemma value_add_kind l r : value_kind (value_add l r) = value_kind r.
Proof. destruct l, r; reflexivity. Qed.

Lemma t_add_frame l r :
  t_name (t_add l r) = t_name l /\ t_tags (t_add l r) = t_tags l /\
  t_timestamp (t_add l r) = t_timestamp l.
Proof. auto. Qed.

Lemma fold_add_frame ts : forall t0,
  t_name (fold_left t_add ts t0) = t_name t0 /\ t_tags (fold_left t_add ts t0) = t_tags t0 /\
  t_timestamp (fold_left t_add ts t0) = t_timestamp t0.
Proof.
  induction ts as [|t ts IH]; intros t0; cbn [fold_left]; [auto|].
  destruct (IH (t_add t0 t)) as (H1 & H2 & H3). cbn in *. auto.
Qed.

Lemma fold_add_set ts : forall t0 (xs : list f64),
  Forall2 (fun t x => t_set t = Some x) ts xs ->
  ts <> [] ->
  t_set (fold_left t_add ts t0) = Some (last xs fzero).
Proof.
  intros t0 xs H. revert t0. induction H as [|t x ts xs Hx H IH]; intros t0 Hne; [congruence|].
  cbn [fold_left]. destruct H as [|t' x' ts xs Hx' H].
  - cbn. unfold t_set, value_set in *. cbn. destruct (t_value t0), (t_value t); cbn in *; congruence.
  - rewrite IH by discriminate. reflexivity.
Qed.

Lemma fold_add_sum ts : forall t0 x0 (xs : list f64),
  t_sum t0 = Some x0 ->
  Forall2 (fun t x => t_sum t = Some x) ts xs ->
  t_sum (fold_left t_add ts t0) = Some (fold_left fadd xs x0).
Proof.
  intros t0 x0 xs H0 H. revert t0 x0 H0.
  induction H as [|t x ts xs Hx H IH]; intros t0 x0 H0; cbn [fold_left]; [assumption|].
  apply IH. unfold t_sum, value_sum in *. cbn.
  destruct (t_value t0); try discriminate. destruct (t_value t); try discriminate.
  inversion H0; inversion Hx; subst. reflexivity.
Qed.

Lemma fold_add_count (k : method) ts : forall t0,
  k = MSummarize \/ k = MHistogram ->
  t_kind t0 = k -> Forall (fun t => t_kind t = k) ts ->
  value_count (t_value (fold_left t_add ts t0)) =
  (value_count (t_value t0) + sumN (map (fun t => value_count (t_value t)) ts))%N.
Proof.
  induction ts as [|t ts IH]; intros t0 Hk H0 Hf.
  - cbn. lia.
  - inversion Hf as [|? ? Ht Hts]; subst. cbn [fold_left].
    rewrite IH; auto.
    + cbn [map sumN fold_right t_value t_add]. unfold sumN. unfold t_kind in *.
      destruct (t_value t0), (t_value t); cbn in *; try (destruct Hk; discriminate); try discriminate.
      * rewrite h_merge_count; lia.
      * rewrite c_merge_count; lia.
    + unfold t_kind in *. cbn. rewrite value_add_kind. congruence.
Qed.

Lemma value_add_count_partial l r :
  sampling r ->
  (value_kind l = MHistogram -> value_kind r = MHistogram) ->
  (forall c s, l = VQuant c s -> value_kind r = MHistogram -> N.of_nat (List.length (c_values c)) = c_count c) ->
  value_count (value_add l r) = (value_count l + value_count r)%N.
Proof.
  intros Hs Hh Hq.
  destruct l as [x|x|h|c s], r as [y|y|h'|c' s']; cbn in *;
    try (destruct Hs; cbn in *; discriminate).
  - rewrite h_insert_count; lia.
  - rewrite c_insert_count; lia.
  - rewrite h_insert_count; lia.
  - rewrite c_insert_count; lia.
  - rewrite h_merge_count; lia.
  - specialize (Hh eq_refl); discriminate.
  - rewrite <- (Hq c s eq_refl eq_refl). clear. revert h'.
    generalize (c_values c). intros xs; induction xs as [|x xs IH]; intros h'.
    + cbn. lia.
    + cbn [fold_left List.length]. rewrite IH, h_insert_count. lia.
  - rewrite c_merge_count; lia.
Qed.

Lemma hist_into_summary_loses h c s :
  value_count (value_add (VHist h) (VQuant c s)) = value_count (VQuant c s).
Proof. reflexivity. Qed.

Ltac hfin :=
  repeat split; cbn; intros; try congruence; try discriminate; try tauto;
  try (let H := fresh in intro H; decompose [and] H; discriminate);
  try (match goal with H : Some _ = Some _ |- _ => inversion H; subst; congruence end).

Lemma harden_cases now s :
  match harden now s with
  | HOk t => valid_builder s /\ ~ bounds_refused s /\
             Some (t_name t) = s_name s /\ t_tags t = s_tags s /\
             t_timestamp t = match s_timestamp s with Some x => x | None => now end /\
             t_persist t = match s_persist s with Some p => p | None => false end /\
             (forall v, s_thawed s = Some v -> t_value t = v) /\
             (forall x, s_initial s = Some x -> t_kind t = kind_of_builder s /\
                (t_kind t = MSet -> t_set t = Some x) /\ (t_kind t = MSum -> t_sum t = Some x) /\
                value_count (t_value t) = 1%N)
  | HErr _ => ~ valid_builder s
  | HPanic => valid_builder s /\ bounds_refused s
  end.
Proof.
  destruct s as [nm iv tv kd er bd ts tg ps ct sm].
  unfold harden, valid_builder, bounds_refused, kind_of_builder.
  cbn [s_name s_initial s_thawed s_kind s_error s_bounds s_timestamp s_tags s_persist s_count s_sum].
  destruct iv as [iv|], tv as [tv|].
  - intros (_ & H & _). destruct H as [H _]. specialize (H ltac:(discriminate)). discriminate.
  - destruct nm as [nm|]; [|intros (H & _); congruence].
    assert (Hsplit : (Some iv <> None <-> @None value = None)) by (split; intros; [reflexivity|discriminate]).
    destruct (match kd with Some k => k | None => MSet end) eqn:Ek.
    + (* sum *) destruct er as [e|].
      { intros (_ & _ & H & _). destruct (H e eq_refl); discriminate. }
      destruct bd as [b|].
      { intros (_ & _ & _ & H). specialize (H ltac:(discriminate)). discriminate. }
      hfin.
    + destruct er as [e|].
      { intros (_ & _ & H & _). destruct (H e eq_refl); discriminate. }
      destruct bd as [b|].
      { intros (_ & _ & _ & H). specialize (H ltac:(discriminate)). discriminate. }
      hfin.
    + destruct bd as [b|].
      { intros (_ & _ & _ & H). specialize (H ltac:(discriminate)). discriminate. }
      destruct er as [e|].
      * destruct (fleb fone e) eqn:Ee.
        { intros (_ & _ & H & _). destruct (H e eq_refl) as [_ H2]. congruence. }
        hfin.
        rewrite c_insert_count, c_new_count; reflexivity.
      * hfin.
        rewrite c_insert_count, c_new_count; reflexivity.
    + destruct er as [e|].
      { intros (_ & _ & H & _). destruct (H e eq_refl); discriminate. }
      destruct (h_new _) as [h|] eqn:Eh.
      * hfin.
        rewrite h_insert_count, (h_new_count _ _ Eh); reflexivity.
      * hfin.
  - destruct nm as [nm|]; [|intros (H & _); congruence].
    destruct (match kd with Some k => k | None => MSet end) eqn:Ek.
    + destruct er as [e|].
      { intros (_ & _ & H & _). destruct (H e eq_refl); discriminate. }
      destruct bd as [b|].
      { intros (_ & _ & _ & H). specialize (H ltac:(discriminate)). discriminate. }
      hfin.
    + destruct er as [e|].
      { intros (_ & _ & H & _). destruct (H e eq_refl); discriminate. }
      destruct bd as [b|].
      { intros (_ & _ & _ & H). specialize (H ltac:(discriminate)). discriminate. }
      hfin.
    + destruct bd as [b|].
      { intros (_ & _ & _ & H). specialize (H ltac:(discriminate)). discriminate. }
      destruct er as [e|].
      * destruct (fleb fone e) eqn:Ee.
        { intros (_ & _ & H & _). destruct (H e eq_refl) as [_ H2]. congruence. }
        hfin.
      * hfin.
    + destruct er as [e|].
      { intros (_ & _ & H & _). destruct (H e eq_refl); discriminate. }
      hfin.
  - intros (_ & H & _). destruct H as [_ H]. exact (H eq_refl eq_refl).
Qed.

Lemma harden_ok_iff now s :
  (exists t, harden now s = HOk t) <-> valid_builder s /\ ~ bounds_refused s.
Proof.
  pose proof (harden_cases now s) as H. destruct (harden now s) as [t|e|].
  - split; [tauto|]. intros _; eexists; reflexivity.
  - split; [intros [t Ht]; discriminate|tauto].
  - split; [intros [t Ht]; discriminate|tauto].
Qed.

Lemma harden_thaw now t : harden now (thaw t) = HOk (plain t).
Proof.
  destruct t as [n v p tg ts oc os]; unfold harden, thaw, plain, t_kind; cbn.
  destruct v; reflexivity.
Qed.
End Values.

(** ** Tags *)
Lemma existsb_seqb k l : existsb (seqb k) l = true <-> In k l.
Proof.
  rewrite existsb_exists. split.
  - intros (x & Hx & E). apply seqb_eq in E; subst; assumption.
  - intros H; exists k; split; [assumption|apply seqb_eq; reflexivity].
Qed.

Lemma tag_iter_defaults_In d : forall seen k v,
  NoDup (map fst d) ->
  (In (k, v) (tag_iter_defaults seen d) <-> In (k, v) d /\ ~ In k seen).
Proof.
  induction d as [|[k' v'] d IH]; intros seen k v Hn; cbn; [tauto|].
  inversion Hn as [|? ? Hn1 Hn2]; subst.
  destruct (existsb (seqb k') seen) eqn:E.
  - apply existsb_seqb in E. rewrite IH by assumption. split.
    + intros [H1 H2]; auto.
    + intros [[H1|H1] H2]; [inversion H1; subst; contradiction|auto].
  - assert (Hk' : ~ In k' seen) by (intros H; apply existsb_seqb in H; congruence).
    cbn. rewrite IH by assumption. split.
    + intros [H1|[H1 H2]].
      * inversion H1; subst; auto.
      * split; [auto|]. intros H; apply H2; right; assumption.
    + intros [[H1|H1] H2]; [left; assumption|right]. split; [assumption|].
      intros [->|H]; [|auto]. apply Hn1. apply in_map_iff. exists (k, v); auto.
Qed.

Lemma tag_iter_defaults_NoDup d : forall seen,
  NoDup (map fst d) -> NoDup (map fst (tag_iter_defaults seen d)).
Proof.
  induction d as [|[k' v'] d IH]; intros seen Hn; cbn; [constructor|].
  inversion Hn as [|? ? Hn1 Hn2]; subst.
  destruct (existsb (seqb k') seen); [auto|]. cbn. constructor; [|auto].
  intros H. apply in_map_iff in H as ([k v] & E & H). cbn in E; subst.
  apply tag_iter_defaults_In in H as [H _]; [|assumption].
  apply Hn1. apply in_map_iff. exists (k', v); auto.
Qed.

Lemma tag_iter_double_app own : forall seen d,
  tag_iter_double seen own d = own ++ tag_iter_defaults (rev (map fst own) ++ seen) d.
Proof.
  induction own as [|[k v] own IH]; intros seen d; cbn [tag_iter_double app map rev]; [reflexivity|].
  rewrite IH. f_equal. f_equal. rewrite <- app_assoc. reflexivity.
Qed.

Lemma tag_iter_layered own d k v :
  otm_ok own -> tm_ok d ->
  (In (k, v) (tag_iter own d) <-> layered own d k v).
Proof.
  intros Ho Hd. destruct own as [own|]; cbn; [|tauto].
  rewrite tag_iter_double_app, app_nil_r, in_app_iff, tag_iter_defaults_In by assumption.
  rewrite <- in_rev. tauto.
Qed.

Lemma tag_iter_NoDup own d : otm_ok own -> tm_ok d -> NoDup (map fst (tag_iter own d)).
Proof.
  intros Ho Hd. destruct own as [own|]; cbn; [|assumption].
  rewrite tag_iter_double_app, app_nil_r, map_app.
  cbn in Ho. unfold tm_ok in *.
  assert (Hdis : forall x, In x (map fst own) -> ~ In x (map fst (tag_iter_defaults (rev (map fst own)) d))).
  { intros x Hx H. apply in_map_iff in H as ([k v] & E & H). cbn in E; subst.
    apply tag_iter_defaults_In in H as [_ H]; [|assumption]. apply H. apply in_rev in Hx. assumption. }
  pose proof (tag_iter_defaults_NoDup d (rev (map fst own)) Hd) as H2.
  revert Ho Hdis H2. generalize (map fst (tag_iter_defaults (rev (map fst own)) d)).
  generalize (map fst own). clear. intros a b Ha Hdis Hb.
  induction a as [|x a IH]; cbn; [assumption|].
  inversion Ha as [|? ? Hx Hn]; subst. constructor.
  - rewrite in_app_iff. intros [H|H]; [auto|]. apply (Hdis x); [left; reflexivity|assumption].
  - apply IH; [assumption|]. intros y Hy; apply Hdis; right; assumption.
Qed.

Lemma get_from_tags_layered own d k v :
  otm_ok own -> tm_ok d ->
  (get_from_tags k own d = Some v <-> layered own d k v).
Proof.
  intros Ho Hd. destruct own as [own|]; cbn; unfold tm_get.
  - destruct (alookup seqb k own) as [v'|] eqn:E.
    + pose proof (alookup_In seqb seqb_eq _ _ _ E) as HI. split.
      * intros [= <-]. left; assumption.
      * intros [H|[H _]].
        -- rewrite (In_alookup seqb seqb_eq k v own Ho H) in E. inversion E; reflexivity.
        -- exfalso; apply H. apply in_map_iff. exists (k, v'); auto.
    + apply (alookup_None seqb seqb_eq) in E. split.
      * intros H. right. split; [assumption|]. eapply alookup_In; eauto using seqb_eq.
      * intros [H|[_ H]].
        -- exfalso; apply E. apply in_map_iff. exists (k, v); auto.
        -- apply (In_alookup seqb seqb_eq); assumption.
  - split; intros H.
    + eapply alookup_In; eauto using seqb_eq.
    + apply (In_alookup seqb seqb_eq); assumption.
Qed.

Lemma insert_tag_spec k v own :
  otm_ok own ->
  let (own', prev) := insert_tag k v own in
  otm_ok own' /\ prev = otag k own /\ otag k own' = Some v /\
  (forall k', k' <> k -> otag k' own' = otag k' own).
Proof.
  intros Ho. destruct own as [m|]; cbn.
  - repeat split.
    + apply ainsert_NoDup; [exact seqb_eq|assumption].
    + apply alookup_ainsert_eq, seqb_eq.
    + intros k' Hk. apply alookup_ainsert_ne; [exact seqb_eq|congruence].
  - repeat split.
    + constructor; [tauto|constructor].
    + unfold tm_get; cbn. rewrite (proj2 (seqb_eq k k) eq_refl). reflexivity.
    + intros k' Hk. unfold tm_get; cbn.
      destruct (seqb k' k) eqn:E; [apply seqb_eq in E; congruence|reflexivity].
Qed.

Lemma remove_tag_spec k own :
  otm_ok own ->
  let (own', prev) := remove_tag k own in
  otm_ok own' /\ prev = otag k own /\ otag k own' = None /\
  (forall k', k' <> k -> otag k' own' = otag k' own).
Proof.
  intros Ho. destruct own as [m|]; cbn; [|auto].
  repeat split.
  - apply aremove_NoDup; assumption.
  - apply alookup_aremove_eq; [exact seqb_eq|assumption].
  - intros k' Hk. apply alookup_aremove_ne; [exact seqb_eq|congruence].
Qed.

Lemma fold_insert_spec m : forall tags,
  NoDup (map fst m) -> NoDup (map fst tags) ->
  let r := fold_left (fun acc kv => tm_insert (fst kv) (snd kv) acc) m tags in
  NoDup (map fst r) /\
  (forall k, alookup seqb k r = match alookup seqb k m with Some v => Some v | None => alookup seqb k tags end).
Proof.
  induction m as [|[k0 v0] m IH]; intros tags Hm Ht; cbn [fold_left]; [cbn; auto|].
  inversion Hm as [|? ? Hm1 Hm2]; subst.
  specialize (IH (tm_insert k0 v0 tags) Hm2). cbn in IH.
  destruct IH as [H1 H2]; [apply ainsert_NoDup; [exact seqb_eq|assumption]|].
  cbn. split; [assumption|]. intros k. rewrite H2. cbn.
  destruct (seqb k k0) eqn:E.
  - apply seqb_eq in E; subst. apply (alookup_None seqb seqb_eq) in Hm1. rewrite Hm1.
    apply alookup_ainsert_eq, seqb_eq.
  - destruct (alookup seqb k m); [reflexivity|].
    apply alookup_ainsert_ne; [exact seqb_eq|]. intros ->.
    rewrite (proj2 (seqb_eq k k) eq_refl) in E; discriminate.
Qed.

Lemma overlay_tags_spec m own :
  otm_ok own -> tm_ok m ->
  otm_ok (overlay_tags m own) /\
  (forall k, otag k (overlay_tags m own) = match tm_get k m with Some v => Some v | None => otag k own end).
Proof.
  intros Ho Hm. destruct own as [tags|]; cbn.
  - apply fold_insert_spec; assumption.
  - destruct m as [|p m]; [cbn; auto|]. split; [assumption|].
    intros k. cbn [otag]. destruct (tm_get k (p :: m)); reflexivity.
Qed.

(** ** Bins *)
Local Open Scope Z_scope.
Lemma tbin_zero w ts : 0 < w -> (tbin w ts = 0 <-> - w < ts < w).
Proof.
  intros Hw. unfold tbin. split.
  - intros H. pose proof (Z.quot_rem' ts w) as E. rewrite H in E.
    pose proof (Z.rem_bound_abs ts w ltac:(lia)). lia.
  - intros H. destruct (Z.le_gt_cases 0 ts).
    + apply Z.quot_small; lia.
    + apply Z.quot_small_iff; lia.
Qed.
Lemma tbin_pos w ts k : 0 < w -> 0 < k -> (tbin w ts = k <-> k * w <= ts < (k + 1) * w).
Proof.
  intros Hw Hk. unfold tbin. pose proof (Z.quot_rem' ts w) as E.
  destruct (Z.le_gt_cases 0 ts) as [Hp|Hn].
  - rewrite Z.quot_div_nonneg by lia. split.
    + intros <-. pose proof (Z.div_mod ts w ltac:(lia)).
      pose proof (Z.mod_pos_bound ts w Hw). nia.
    + intros H. symmetry. apply (Z.div_unique ts w k (ts - k * w)); lia.
  - split.
    + intros H. pose proof (Z.rem_nonpos ts w ltac:(lia) ltac:(lia)).
      assert (Z.quot ts w <= 0); [|lia].
      { pose proof (Z.quot_opp_l ts w ltac:(lia)). rewrite Z.quot_div_nonneg in H1 by lia.
        pose proof (Z.div_pos (- ts) w ltac:(lia) Hw). lia. }
    + nia.
Qed.
Lemma tbin_opp w ts : 0 < w -> tbin w (- ts) = - tbin w ts.
Proof. intros Hw. unfold tbin. apply Z.quot_opp_l; lia. Qed.
Lemma tbin_neg w ts k : 0 < w -> k < 0 -> (tbin w ts = k <-> (k - 1) * w < ts <= k * w).
Proof.
  intros Hw Hk. pose proof (tbin_pos w (- ts) (- k) Hw ltac:(lia)) as H.
  rewrite tbin_opp in H by assumption. split.
  - intros E. assert (E' : - tbin w ts = - k) by lia. apply H in E'. lia.
  - intros E. assert (E' : - k * w <= - ts < (- k + 1) * w) by lia. apply H in E'. lia.
Qed.
Lemma tbin_same_nonneg w a b : 0 < w -> 0 <= a -> 0 <= b ->
  (tbin w a = tbin w b <-> same_interval w a b).
Proof.
  intros Hw Ha Hb. unfold tbin. rewrite !Z.quot_div_nonneg by lia. split.
  - intros H. exists (a / w).
    pose proof (Z.div_mod a w ltac:(lia)). pose proof (Z.mod_pos_bound a w Hw).
    pose proof (Z.div_mod b w ltac:(lia)). pose proof (Z.mod_pos_bound b w Hw).
    split; nia.
  - intros (k & H1 & H2). transitivity k.
    + symmetry. apply (Z.div_unique a w k (a - k * w)); lia.
    + apply (Z.div_unique b w k (b - k * w)); lia.
Qed.
Lemma tbin_mono w a b : 0 < w -> a <= b -> tbin w a <= tbin w b.
Proof. intros. unfold tbin. apply Z.quot_le_mono; lia. Qed.
Local Close Scope Z_scope.

Lemma pairs_cmp_refl m : pairs_cmp m m = Eq.
Proof. induction m as [|[k v] m IH]; cbn; [reflexivity|]. rewrite !scmp_refl; assumption. Qed.
Lemma pairs_cmp_eq : forall a b, pairs_cmp a b = Eq <-> a = b.
Proof.
  split; [|intros ->; apply pairs_cmp_refl]. revert b.
  induction a as [|[k v] a IH]; intros [|[k' v'] b]; cbn; try discriminate; [reflexivity|].
  destruct (scmp k k') eqn:E1; try discriminate. destruct (scmp v v') eqn:E2; try discriminate.
  apply scmp_eq in E1, E2; subst. intros H; apply IH in H; subst; reflexivity.
Qed.
Lemma pairs_cmp_antisym a : forall b, pairs_cmp b a = CompOpp (pairs_cmp a b).
Proof.
  induction a as [|[k v] a IH]; intros [|[k' v'] b]; cbn; try reflexivity.
  rewrite (scmp_antisym k k'), (scmp_antisym v v').
  destruct (scmp k k'); cbn; try reflexivity. destruct (scmp v v'); cbn; auto.
Qed.
Lemma pairs_cmp_trans a : forall b c, pairs_cmp a b = Lt -> pairs_cmp b c = Lt -> pairs_cmp a c = Lt.
Proof.
  induction a as [|[k v] a IH]; intros [|[k' v'] b] [|[k'' v''] c]; cbn; try discriminate; auto.
  destruct (scmp k k') eqn:E1; try discriminate.
  - apply scmp_eq in E1; subst k'. destruct (scmp v v') eqn:E2; try discriminate.
    + apply scmp_eq in E2; subst v'. intros H1.
      destruct (scmp k k'') eqn:E3; auto; try discriminate.
      destruct (scmp v v'') eqn:E4; auto; try discriminate. intros H2; eapply IH; eauto.
    + intros _. destruct (scmp k k'') eqn:E3; auto; try discriminate.
      destruct (scmp v' v'') eqn:E4; try discriminate.
      * apply scmp_eq in E4; subst. rewrite E2; reflexivity.
      * rewrite (scmp_lt_trans _ _ _ E2 E4); reflexivity.
  - intros _. destruct (scmp k' k'') eqn:E3; try discriminate.
    + apply scmp_eq in E3; subst. rewrite E1; reflexivity.
    + rewrite (scmp_lt_trans _ _ _ E1 E3); reflexivity.
Qed.

Lemma cmp_tagmap_eq a b : cmp_tagmap (Some a) (Some b) = Eq <-> a = b.
Proof.
  cbn. destruct (Nat.eqb_spec (List.length a) (List.length b)) as [H|H].
  - apply pairs_cmp_eq.
  - split; [|intros ->; congruence]. intros E. apply Nat.compare_eq_iff in E; contradiction.
Qed.
Lemma cmp_tagmap_antisym a b : cmp_tagmap b a = CompOpp (cmp_tagmap a b).
Proof.
  destruct a as [a|], b as [b|]; cbn; try reflexivity.
  rewrite (Nat.eqb_sym (List.length b)). destruct (Nat.eqb (List.length a) (List.length b)).
  - apply pairs_cmp_antisym.
  - apply Nat.compare_antisym.
Qed.
Lemma cmp_tagmap_trans a b c :
  cmp_tagmap (Some a) (Some b) = Lt -> cmp_tagmap (Some b) (Some c) = Lt ->
  cmp_tagmap (Some a) (Some c) = Lt.
Proof.
  cbn. destruct (Nat.eqb_spec (List.length a) (List.length b)) as [H1|H1];
  destruct (Nat.eqb_spec (List.length b) (List.length c)) as [H2|H2];
  destruct (Nat.eqb_spec (List.length a) (List.length c)) as [H3|H3]; try lia;
  rewrite ?Nat.compare_lt_iff; try lia.
  intros; eapply pairs_cmp_trans; eauto.
Qed.

Section Within.
Context `{Q : QLib}.
Lemma within_series span (a b : telemetry) :
  series_key a = series_key b ->
  within span a b = Z.compare (tbin span (t_timestamp a)) (tbin span (t_timestamp b)).
Proof.
  unfold series_key. intros [= Hn Ht]. unfold within. rewrite Hn, scmp_refl.
  assert (E : cmp_tagmap (t_tags a) (t_tags b) = Eq).
  { destruct (t_tags a) as [ma|], (t_tags b) as [mb|]; try reflexivity.
    apply cmp_tagmap_eq. cbn in Ht. revert mb Ht. clear.
    induction ma as [|[k v] ma IH]; intros [|[k' v'] mb]; cbn; try discriminate; [reflexivity|].
    intros [= -> -> H]. apply IH in H; subst; reflexivity. }
  rewrite E; reflexivity.
Qed.
Lemma within_eq_iff span (a b : telemetry) :
  within span a b = Eq <->
  t_name a = t_name b /\ cmp_tagmap (t_tags a) (t_tags b) = Eq /\
  tbin span (t_timestamp a) = tbin span (t_timestamp b).
Proof.
  unfold within. destruct (scmp (t_name a) (t_name b)) eqn:E1.
  - apply scmp_eq in E1. destruct (cmp_tagmap _ _) eqn:E2.
    + rewrite Z.compare_eq_iff. tauto.
    + split; [discriminate|intros (_ & H & _); discriminate].
    + split; [discriminate|intros (_ & H & _); discriminate].
  - split; [discriminate|]. intros (H & _). rewrite H, scmp_refl in E1; discriminate.
  - split; [discriminate|]. intros (H & _). rewrite H, scmp_refl in E1; discriminate.
Qed.
End Within.
