From Verif Require Import Base BaseFacts TelemetryModel TelemetryProofs TelemetrySpec BucketsModel BucketsSpec.

Lemma Forall2_length {A B} (R : A -> B -> Prop) l l' : Forall2 R l l' -> List.length l = List.length l'.
Proof. induction 1; cbn; congruence. Qed.

Section Proofs.
Context `{Q : QLib}.
Variable hfun : list string -> N.
Variable w : Z.
Hypothesis w_pos : (0 < w)%Z.
(** the series that may occur, on which the hash is injective *)
Variable S : list string -> Prop.
Hypothesis S_inj : forall a b, S a -> S b -> hfun a = hfun b -> a = b.

Notation hash := (name_tag_hash hfun).
Notation bin := (pbin w).

Definition blt (a b : telemetry) : Prop := (bin a < bin b)%Z.

Definition vec_ok (k : N) (v : list telemetry) : Prop :=
  Forall (fun t => S (series_key t) /\ hash t = k) v /\ StronglySorted blt v.

Definition Inv (b : buckets) : Prop :=
  Forall2 vec_ok (b_keys b) (b_values b) /\
  StronglySorted N.lt (b_keys b) /\
  b_width b = w /\
  b_count b = N.min (N.of_nat (List.length (b_iter b))) u64_max.

Lemma Inv_new : Inv (b_new w).
Proof.
  unfold Inv, b_new, b_iter; cbn. repeat split; try constructor.
Qed.

Lemma carry_eq prev t : carry prev t = Some (carried prev t).
Proof.
  unfold carry, carried, harden, thaw, t_add, t_kind; destruct prev as [n v p tg ts oc os]; cbn.
  destruct v; reflexivity.
Qed.

(** a sorted vector of one series splits around the bin of a new point *)
Lemma vec_split v t : StronglySorted blt v ->
  exists l1 l3,
    Forall (fun p => (bin p < bin t)%Z) l1 /\ Forall (fun p => (bin t < bin p)%Z) l3 /\
    (v = l1 ++ l3 \/ exists y, v = l1 ++ y :: l3 /\ bin y = bin t).
Proof.
  induction v as [|p v IH]; intros Hs.
  - exists [], []; repeat split; auto.
  - inversion Hs as [|? ? Hs' Hf]; subst. destruct (Z.lt_trichotomy (bin p) (bin t)) as [H|[H|H]].
    + destruct (IH Hs') as (l1 & l3 & H1 & H3 & H2).
      exists (p :: l1), l3. split; [constructor; assumption|]. split; [assumption|].
      destruct H2 as [->|(y & -> & Hy)]; [left; reflexivity|right; exists y; auto].
    + exists [], v. split; [constructor|]. split.
      * rewrite Forall_forall in *. intros q Hq. specialize (Hf q Hq). unfold blt in Hf; lia.
      * right; exists p; auto.
    + exists [], (p :: v). split; [constructor|]. split; [|left; reflexivity].
      constructor; [assumption|]. rewrite Forall_forall in *. intros q Hq.
      specialize (Hf q Hq). unfold blt in Hf; lia.
Qed.

Lemma within_lt p t : series_key p = series_key t -> (bin p < bin t)%Z -> within w p t = Lt.
Proof. intros Hs H. rewrite within_series by assumption. apply Z.compare_lt_iff; exact H. Qed.
Lemma within_eq p t : series_key p = series_key t -> bin p = bin t -> within w p t = Eq.
Proof. intros Hs H. rewrite within_series by assumption. apply Z.compare_eq_iff; exact H. Qed.
Lemma within_gt p t : series_key p = series_key t -> (bin t < bin p)%Z -> within w p t = Gt.
Proof. intros Hs H. rewrite within_series by assumption. apply Z.compare_gt_iff; exact H. Qed.

(** The effect of adding a point on its series' vector. *)
Inductive vec_shape (t : telemetry) (v v' : list telemetry) : bool -> Prop :=
| vs_hit l1 y l3 : v = l1 ++ y :: l3 -> v' = l1 ++ t_add y t :: l3 -> bin y = bin t ->
    Forall (fun p => (bin p < bin t)%Z) l1 -> Forall (fun p => (bin t < bin p)%Z) l3 ->
    vec_shape t v v' false
| vs_carry l1 y l3 : v = (l1 ++ [y]) ++ l3 -> v' = (l1 ++ [y]) ++ carried y t :: l3 ->
    t_persist t = true ->
    Forall (fun p => (bin p < bin t)%Z) (l1 ++ [y]) -> Forall (fun p => (bin t < bin p)%Z) l3 ->
    vec_shape t v v' true
| vs_new l1 l3 : v = l1 ++ l3 -> v' = l1 ++ t :: l3 ->
    (t_persist t = false \/ l1 = []) ->
    Forall (fun p => (bin p < bin t)%Z) l1 -> Forall (fun p => (bin t < bin p)%Z) l3 ->
    vec_shape t v v' true.

Lemma vec_add_shape v t : StronglySorted blt v ->
  Forall (fun p => series_key p = series_key t) v ->
  exists v' g, vec_add w v t = Some (v', g) /\ vec_shape t v v' g.
Proof.
  intros Hs Hser. unfold vec_add.
  replace (w =? 0)%Z with false by (symmetry; apply Z.eqb_neq; lia). cbn [andb].
  destruct (vec_split v t Hs) as (l1 & l3 & H1 & H3 & Hcase).
  destruct Hcase as [->|(y & -> & Hy)].
  - rewrite Forall_app in Hser. destruct Hser as [Hs1 Hs3].
    rewrite bsearch_none.
    + destruct (andb (t_persist t) (0 <? List.length l1)) eqn:Ep.
      * apply andb_true_iff in Ep as [Ep El]. apply Nat.ltb_lt in El.
        destruct (exists_last (l := l1)) as (l1' & y & ->).
        { intros ->; cbn in El; lia. }
        replace (List.length (l1' ++ [y]) - 1) with (List.length l1') by (rewrite app_length; cbn; lia).
        assert (En : nth_error ((l1' ++ [y]) ++ l3) (List.length l1') = Some y).
        { rewrite <- app_assoc, nth_error_app2, Nat.sub_diag by lia. reflexivity. }
        rewrite En, carry_eq. rewrite insert_at_app.
        do 2 eexists; split; [reflexivity|]. eapply vs_carry; eauto.
      * rewrite insert_at_app. do 2 eexists; split; [reflexivity|]. eapply vs_new; eauto.
        apply andb_false_iff in Ep as [Ep|Ep]; [left; assumption|right].
        apply Nat.ltb_ge in Ep. destruct l1; [reflexivity|cbn in Ep; lia].
    + rewrite Forall_forall in *. intros p Hp. apply within_lt; auto.
    + rewrite Forall_forall in *. intros p Hp. apply within_gt; auto.
  - rewrite Forall_app in Hser. destruct Hser as [Hs1 Hs3]. inversion Hs3 as [|? ? Hsy Hs3']; subst.
    rewrite bsearch_one.
    + rewrite update_at_app. do 2 eexists; split; [reflexivity|]. eapply vs_hit; eauto.
    + rewrite Forall_forall in *. intros p Hp. apply within_lt; auto.
    + apply within_eq; assumption.
    + rewrite Forall_forall in *. intros p Hp. apply within_gt; auto.
Qed.

Lemma series_add y t : series_key (t_add y t) = series_key y.
Proof. reflexivity. Qed.
Lemma series_carried y t : series_key (carried y t) = series_key y.
Proof. reflexivity. Qed.
Lemma bin_add y t : bin (t_add y t) = bin y.
Proof. reflexivity. Qed.
Lemma bin_carried y t : bin (carried y t) = bin t.
Proof. reflexivity. Qed.

Lemma sorted_mid l1 x l3 (b : Z) :
  StronglySorted blt (l1 ++ l3) -> bin x = b ->
  Forall (fun p => (bin p < b)%Z) l1 -> Forall (fun p => (b < bin p)%Z) l3 ->
  StronglySorted blt (l1 ++ x :: l3).
Proof.
  intros Hs Hx H1 H3. apply sorted_app_inv in Hs as (Hs1 & Hs3 & _).
  rewrite Forall_forall in H1, H3. apply sorted_app; [assumption| |].
  - constructor; [assumption|]. apply Forall_forall. intros p Hp. unfold blt. specialize (H3 p Hp). lia.
  - intros p q Hp [<-|Hq]; unfold blt; specialize (H1 p Hp); [lia|]. specialize (H3 q Hq); lia.
Qed.

Lemma vec_shape_ok t v v' g k : vec_ok k v -> S (series_key t) -> hash t = k ->
  vec_shape t v v' g -> vec_ok k v'.
Proof.
  intros [Hf Hs] Ht Hk Hsh. destruct Hsh as [l1 y l3 -> -> Hy H1 H3|l1 y l3 -> -> Hp H1 H3|l1 l3 -> -> Hp H1 H3].
  - split.
    + rewrite Forall_app in *. destruct Hf as [Hf1 Hf3]. inversion Hf3 as [|? ? Hfy Hf3']; subst.
      split; [assumption|]. constructor; [exact Hfy|assumption].
    + apply sorted_mid with (b := bin t); auto.
      apply sorted_app_inv in Hs as (Hs1 & Hs3 & H). inversion Hs3; subst.
      apply sorted_app; auto. intros a b Ha Hb. apply H; [assumption|right; assumption].
  - split.
    + rewrite !Forall_app in *. destruct Hf as [[Hf1 Hfy] Hf3]. inversion Hfy as [|? ? [Hy1 Hy2] _]; subst.
      split; [split; assumption|]. constructor; [|assumption]. split; [exact Hy1|exact Hy2].
    + apply sorted_mid with (b := bin t); auto.
  - split.
    + rewrite Forall_app in *. destruct Hf as [Hf1 Hf3]. split; [assumption|]. constructor; auto.
    + apply sorted_mid with (b := bin t); auto.
Qed.

Lemma vec_shape_len t v v' g : vec_shape t v v' g ->
  List.length v' = List.length v + (if g then 1 else 0).
Proof.
  intros [l1 y l3 -> -> _ _ _|l1 y l3 -> -> _ _ _|l1 l3 -> -> _ _ _]; rewrite !app_length; cbn; lia.
Qed.

Lemma iter_from_app ks1 vs1 ks2 vs2 : List.length ks1 = List.length vs1 ->
  iter_from (ks1 ++ ks2) (vs1 ++ vs2) = iter_from ks1 vs1 ++ iter_from ks2 vs2.
Proof.
  revert vs1; induction ks1 as [|k ks1 IH]; intros [|v vs1]; cbn; try discriminate; [reflexivity|].
  intros [= H]. rewrite IH by assumption. rewrite app_assoc. reflexivity.
Qed.

Lemma iter_from_hash ks vs p : Forall2 vec_ok ks vs -> In p (iter_from ks vs) -> S (series_key p) /\ In (hash p) ks.
Proof.
  induction 1 as [|k v ks vs [Hk _] H IH]; cbn; [tauto|].
  rewrite in_app_iff. intros [Hp|Hp].
  - rewrite Forall_forall in Hk. destruct (Hk p Hp) as [H1 H2]. split; [exact H1|left; auto].
  - destruct (IH Hp); auto.
Qed.

(** splitting strictly sorted keys around a hash *)
Lemma keys_split ks h : StronglySorted N.lt ks ->
  exists k1 k3, Forall (fun k => (k < h)%N) k1 /\ Forall (fun k => (h < k)%N) k3 /\
    (ks = k1 ++ k3 \/ ks = k1 ++ h :: k3).
Proof.
  induction ks as [|k ks IH]; intros Hs.
  - exists [], []; repeat split; auto.
  - inversion Hs as [|? ? Hs' Hf]; subst. destruct (N.lt_trichotomy k h) as [H|[H|H]].
    + destruct (IH Hs') as (k1 & k3 & H1 & H3 & Hc). exists (k :: k1), k3.
      split; [constructor; assumption|]. split; [assumption|].
      destruct Hc as [->| ->]; [left|right]; reflexivity.
    + subst. exists [], ks. split; [constructor|]. split; [assumption|right; reflexivity].
    + exists [], (k :: ks). split; [constructor|]. split; [|left; reflexivity].
      constructor; [assumption|]. rewrite Forall_forall in *. intros q Hq. specialize (Hf q Hq); lia.
Qed.

(** The effect of adding a point on the whole buffer. *)
Lemma add_shape b t : Inv b -> S (series_key t) ->
  exists b' A v v' B g,
    b_add hfun b t = Some b' /\ Inv b' /\
    b_iter b = A ++ v ++ B /\ b_iter b' = A ++ v' ++ B /\
    (forall p, In p (A ++ B) -> hash p <> hash t /\ S (series_key p)) /\
    (forall p, In p v -> series_key p = series_key t) /\
    StronglySorted blt v /\
    vec_shape t v v' g.
Proof.
  intros (Hok & Hsort & Hw & Hcnt) HS. unfold b_add.
  destruct (keys_split (b_keys b) (hash t) Hsort) as (k1 & k3 & H1 & H3 & Hc).
  assert (HL : Forall (fun k => N.compare k (hash t) = Lt) k1).
  { eapply Forall_impl; [|exact H1]. intros k; apply N.compare_lt_iff. }
  assert (HG : Forall (fun k => N.compare k (hash t) = Gt) k3).
  { eapply Forall_impl; [|exact H3]. intros k; apply N.compare_gt_iff. }
  assert (HframeA : forall v1 v3, Forall2 vec_ok k1 v1 -> Forall2 vec_ok k3 v3 ->
     forall p, In p (iter_from k1 v1 ++ iter_from k3 v3) -> hash p <> hash t /\ S (series_key p)).
  { intros v1 v3 F1 F3 p Hp. rewrite in_app_iff in Hp. rewrite Forall_forall in H1, H3.
    destruct Hp as [Hp|Hp].
    - destruct (iter_from_hash _ _ _ F1 Hp) as [? Hi]. specialize (H1 _ Hi). split; [lia|assumption].
    - destruct (iter_from_hash _ _ _ F3 Hp) as [? Hi]. specialize (H3 _ Hi). split; [lia|assumption]. }
  unfold b_iter in *.
  destruct Hc as [Hk|Hk]; rewrite Hk in *.
  - (* new key *)
    rewrite (bsearch_none _ k1 k3 HL HG), insert_at_app.
    apply Forall2_app_inv_l in Hok as (v1 & v3 & F1 & F3 & Hv). rewrite Hv in *.
    pose proof (Forall2_length _ _ _ F1) as L1. rewrite L1, insert_at_app.
    rewrite nth_error_app2, Nat.sub_diag by lia. cbn [nth_error]. rewrite Hw.
    destruct (vec_add_shape [] t) as (v' & g & -> & Hsh); [constructor|constructor|].
    rewrite (update_at_app v1 v3 [] (fun _ => v')).
    eexists _, (iter_from k1 v1), [], v', (iter_from k3 v3), g.
    split; [reflexivity|].
    assert (Hokv : vec_ok (hash t) v').
    { eapply vec_shape_ok; eauto. split; constructor. }
    assert (Hg : g = true) by (inversion Hsh as [? ? ? E| |]; subst; [destruct l1; discriminate|reflexivity|reflexivity]).
    rewrite !iter_from_app in * by lia. cbn [iter_from app b_keys b_values b_width b_count].
    split; [|split; [reflexivity|split; [rewrite iter_from_app by lia; reflexivity|]]].
    + unfold Inv. cbn [b_keys b_values b_width b_count b_iter].
      split; [apply Forall2_app; [assumption|constructor; assumption]|].
      split.
      { apply sorted_app_inv in Hsort as (Hs1 & Hs3 & Hx). rewrite Forall_forall in H1, H3.
        apply sorted_app; [assumption|constructor; [assumption|apply Forall_forall; assumption]|].
        intros x y Hx1 [<-|Hy]; [auto|]. apply Hx; assumption. }
      split; [reflexivity|].
      unfold b_iter; cbn [b_keys b_values]. rewrite iter_from_app by lia. cbn [iter_from].
      rewrite Hcnt, Hg. pose proof (vec_shape_len _ _ _ _ Hsh) as Hl. rewrite Hg in Hl. cbn in Hl.
      rewrite !app_length, Hl. unfold sat_succ, u64_max. lia.
    + split; [apply HframeA; assumption|]. split; [intros p []|]. split; [constructor|exact Hsh].
  - (* existing key *)
    rewrite (bsearch_one _ k1 (hash t) k3 HL (N.compare_refl _) HG).
    apply Forall2_app_inv_l in Hok as (v1 & v3' & F1 & F3' & Hv).
    inversion F3' as [|? v ? v3 Hvok F3 E1 E2]; subst v3'. rewrite Hv in *.
    pose proof (Forall2_length _ _ _ F1) as L1. rewrite L1.
    rewrite nth_error_app2, Nat.sub_diag by lia. cbn [nth_error]. rewrite Hw.
    assert (Hser : forall p, In p v -> series_key p = series_key t).
    { intros p Hp. destruct Hvok as [Hf _]. rewrite Forall_forall in Hf. destruct (Hf p Hp) as [Hp1 Hp2].
      apply S_inj; assumption. }
    destruct (vec_add_shape v t) as (v' & g & -> & Hsh); [apply Hvok|apply Forall_forall; exact Hser|].
    rewrite (update_at_app v1 v3 v (fun _ => v')).
    eexists _, (iter_from k1 v1), v, v', (iter_from k3 v3), g.
    split; [reflexivity|].
    assert (Hokv : vec_ok (hash t) v') by (eapply vec_shape_ok; eauto).
    rewrite !iter_from_app in * by lia. cbn [iter_from app b_keys b_values b_width b_count] in *.
    split; [|split; [reflexivity|split; [rewrite iter_from_app by lia; reflexivity|]]].
    + unfold Inv. cbn [b_keys b_values b_width b_count b_iter].
      split; [apply Forall2_app; [assumption|constructor; assumption]|].
      split; [assumption|]. split; [reflexivity|].
      unfold b_iter; cbn [b_keys b_values]. rewrite iter_from_app by lia. cbn [iter_from].
      rewrite Hcnt. pose proof (vec_shape_len _ _ _ _ Hsh) as Hl.
      rewrite !app_length, Hl. destruct g; unfold sat_succ, u64_max; lia.
    + split; [apply HframeA; assumption|]. split; [exact Hser|]. split; [apply Hvok|exact Hsh].
Qed.

(** ** Reset *)
Lemma vec_reset_cases now v :
  (v = [] /\ vec_reset now v = []) \/
  exists l p, v = l ++ [p] /\ vec_reset now v = if t_persist p then [t_set_timestamp now p] else [].
Proof.
  destruct v as [|x v]; [left; auto|right].
  destruct (exists_last (l := x :: v)) as (l & p & E); [discriminate|].
  exists l, p. split; [assumption|]. unfold vec_reset. rewrite E, rev_app_distr. reflexivity.
Qed.

Lemma vec_reset_ok now k v : vec_ok k v -> vec_ok k (vec_reset now v).
Proof.
  intros [Hf Hs]. destruct (vec_reset_cases now v) as [[-> ->]|(l & p & -> & ->)].
  - split; constructor.
  - rewrite Forall_app in Hf. destruct Hf as [_ Hp]. inversion Hp as [|? ? [H1 H2] _]; subst.
    destruct (t_persist p); [|split; constructor].
    split; repeat constructor; assumption.
Qed.

Lemma reset_count_fold (vs : list (list telemetry)) : forall c,
  (forall v, In v vs -> List.length v <= 1) ->
  fold_left (fun c v => if Nat.eqb (List.length v) 0 then c else sat_succ c) vs (N.min c u64_max) =
  N.min (c + N.of_nat (List.length (List.concat vs))) u64_max.
Proof.
  induction vs as [|v vs IH]; intros c Hl; cbn [fold_left List.concat].
  - cbn. f_equal; lia.
  - assert (Hv := Hl v (or_introl eq_refl)). rewrite app_length.
    destruct (Nat.eqb_spec (List.length v) 0) as [E|E].
    + rewrite IH; [f_equal; lia|]. intros; apply Hl; right; assumption.
    + replace (sat_succ (N.min c u64_max)) with (N.min (c + 1) u64_max) by (unfold sat_succ; lia).
      rewrite IH; [f_equal; lia|]. intros; apply Hl; right; assumption.
Qed.

Lemma iter_from_concat ks vs : List.length ks = List.length vs -> iter_from ks vs = List.concat vs.
Proof.
  revert vs; induction ks as [|k ks IH]; intros [|v vs]; cbn; try discriminate; [reflexivity|].
  intros [= H]; rewrite IH; auto.
Qed.

Lemma Inv_reset now b : Inv b -> Inv (b_reset now b).
Proof.
  intros (Hok & Hsort & Hw & Hcnt). unfold Inv, b_reset, b_iter. cbn [b_keys b_values b_width b_count].
  assert (Hok' : Forall2 vec_ok (b_keys b) (map (vec_reset now) (b_values b))).
  { clear -Hok. induction Hok; cbn; constructor; auto using vec_reset_ok. }
  split; [assumption|]. split; [assumption|]. split; [assumption|].
  rewrite iter_from_concat by (apply Forall2_length in Hok'; assumption).
  change 0%N with (N.min 0 u64_max) at 1. rewrite reset_count_fold.
  - reflexivity.
  - intros v Hv. apply in_map_iff in Hv as (u & <- & _).
    destruct (vec_reset_cases now u) as [[_ ->]|(l & p & _ & ->)]; [cbn; lia|].
    destruct (t_persist p); cbn; lia.
Qed.

(** order of iteration *)
Definition plt (p q : telemetry) : Prop :=
  (hash p < hash q)%N \/ (hash p = hash q /\ (bin p < bin q)%Z).

Lemma iter_sorted b : Inv b -> StronglySorted plt (b_iter b).
Proof.
  intros (Hok & Hsort & _). unfold b_iter. revert Hok Hsort.
  generalize (b_keys b) (b_values b). intros ks vs Hok. induction Hok as [|k v ks vs [Hv Hs] Hok IH]; intros Hsort.
  - constructor.
  - inversion Hsort as [|? ? Hsort' Hlt]; subst. cbn [iter_from]. apply sorted_app.
    + clear -Hv Hs. induction v as [|p v IH]; [constructor|].
      inversion Hv as [|? ? [_ Hp] Hv']; subst. inversion Hs as [|? ? Hs' Hf]; subst.
      constructor; [auto|]. rewrite Forall_forall in *. intros q Hq. right.
      split; [symmetry; apply (Hv' q Hq)|]. apply (Hf q Hq).
    + auto.
    + intros p q Hp Hq. left. rewrite Forall_forall in Hv, Hlt. destruct (Hv p Hp) as [_ ->].
      apply Hlt. eapply iter_from_hash; eauto.
Qed.

Lemma iter_series b p : Inv b -> In p (b_iter b) -> S (series_key p).
Proof. intros (Hok & _) Hp. eapply iter_from_hash; eauto. Qed.

(** two points of the buffer with the same series and bin are the same point *)
Lemma iter_unique b p q : Inv b -> In p (b_iter b) -> In q (b_iter b) ->
  series_key p = series_key q -> bin p = bin q -> p = q.
Proof.
  intros HI Hp Hq Hs Hb. pose proof (iter_sorted b HI) as Hsort.
  assert (Hh : hash p = hash q) by (unfold name_tag_hash; congruence).
  revert Hp Hq Hsort. generalize (b_iter b). clear -Hh Hb.
  induction l as [|x l IH]; cbn; [tauto|]. intros Hp Hq Hsort.
  inversion Hsort as [|? ? Hsort' Hf]; subst. rewrite Forall_forall in Hf. unfold plt in Hf.
  destruct Hp as [->|Hp], Hq as [->|Hq]; auto.
  - specialize (Hf _ Hq). lia.
  - specialize (Hf _ Hp). lia.
Qed.

(** ** Refinement *)
Definition abs_of (l : list telemetry) : amap :=
  fun s k => find (fun p => andb (if list_eq_dec string_dec (series_key p) s then true else false) (Z.eqb (bin p) k)) l.

Lemma abs_represents b : Inv b -> represents w (b_iter b) (abs_of (b_iter b)).
Proof.
  intros HI s k p. unfold abs_of. split.
  - intros H. apply find_some in H as [H1 H2]. apply andb_true_iff in H2 as [H2 H3].
    apply Z.eqb_eq in H3. destruct (list_eq_dec string_dec (series_key p) s); [auto|discriminate].
  - intros (H1 & H2 & H3).
    destruct (find _ (b_iter b)) as [q|] eqn:E.
    + apply find_some in E as [E1 E2]. apply andb_true_iff in E2 as [E2 E3]. apply Z.eqb_eq in E3.
      destruct (list_eq_dec string_dec (series_key q) s) as [E4|]; [|discriminate].
      f_equal. apply (iter_unique b); auto; congruence.
    + eapply find_none in E; [|exact H1]. apply andb_false_iff in E as [E|E].
      * destruct (list_eq_dec string_dec (series_key p) s); [discriminate|contradiction].
      * apply Z.eqb_neq in E. contradiction.
Qed.

Lemma represents_None l M s k : represents w l M ->
  (forall p, In p l -> series_key p = s -> bin p <> k) -> M s k = None.
Proof.
  intros HR H. destruct (M s k) as [p|] eqn:E; [|reflexivity].
  apply HR in E as (H1 & H2 & H3). exfalso; eapply H; eauto.
Qed.

Lemma add_refines b t M : Inv b -> S (series_key t) -> represents w (b_iter b) M ->
  exists b' M', b_add hfun b t = Some b' /\ Inv b' /\ represents w (b_iter b') M' /\ add_spec w M t M'.
Proof.
  intros HI HS HR. destruct (add_shape b t HI HS) as (b' & A & v & v' & B & g & Hadd & HI' & Hb & Hb' & Hfr & Hser & Hvs & Hsh).
  exists b', (abs_of (b_iter b')). split; [assumption|]. split; [assumption|].
  pose proof (abs_represents b' HI') as HR'. split; [assumption|].
  (* all other points *)
  assert (Hout : forall p, In p (A ++ B) -> series_key p <> series_key t).
  { intros p Hp E. destruct (Hfr p Hp) as [H _]. apply H. unfold name_tag_hash. congruence. }
  assert (Hsto : forall x, (forall p, In p v' -> p = x \/ (In p v /\ bin p <> bin t)) ->
             (forall p, In p v -> bin p <> bin t -> In p v') -> In x v' -> series_key x = series_key t ->
             bin x = bin t ->
             stored M (series_key t) (bin t) x (abs_of (b_iter b'))).
  { intros x Hx1 Hx2 Hx3 Hx4 Hx5. split.
    - apply HR'. split; [|auto]. rewrite Hb'. rewrite !in_app_iff; auto.
    - intros s' k' Hne.
      destruct (M s' k') as [p|] eqn:E.
      + apply HR in E as (E1 & E2 & E3). apply HR'. split; [|auto].
        rewrite Hb in E1. rewrite Hb'. rewrite !in_app_iff in *. destruct E1 as [E1|[E1|E1]]; auto.
        right; left. apply Hx2; [assumption|]. intros E4. destruct Hne as [Hne|Hne]; [|congruence].
        apply Hne. rewrite <- E2. apply Hser; assumption.
      + apply (represents_None _ _ _ _ HR'). intros p Hp Es Ek.
        rewrite Hb' in Hp. rewrite !in_app_iff in Hp.
        assert (Hc : In p (b_iter b) \/ p = x).
        { rewrite Hb. rewrite !in_app_iff. destruct Hp as [Hp|[Hp|Hp]]; auto.
          destruct (Hx1 p Hp) as [->|[H _]]; auto. }
        destruct Hc as [Hc| ->].
        * assert (M s' k' = Some p) by (apply HR; auto). congruence.
        * destruct Hne; congruence. }
  assert (HMv : forall k p, M (series_key t) k = Some p <-> In p v /\ bin p = k).
  { intros k p. rewrite (HR (series_key t) k p). split.
    - intros (H1 & H2 & H3). split; [|assumption]. rewrite Hb, !in_app_iff in H1.
      destruct H1 as [H1|[H1|H1]]; [|assumption|].
      + exfalso; eapply Hout; [|exact H2]. rewrite in_app_iff; auto.
      + exfalso; eapply Hout; [|exact H2]. rewrite in_app_iff; auto.
    - intros [H1 H2]. split; [rewrite Hb, !in_app_iff; auto|]. auto. }
  assert (HMnone : forall k, (forall p, In p v -> bin p <> k) -> M (series_key t) k = None).
  { intros k H. destruct (M (series_key t) k) as [p|] eqn:E; [|reflexivity].
    apply HMv in E as [E1 E2]. exfalso; eapply H; eauto. }
  destruct Hsh as [l1 y l3 -> -> Hy H1 H3|l1 y l3 -> -> Hp H1 H3|l1 l3 -> -> Hp H1 H3];
    rewrite Forall_forall in H1, H3.
  - apply add_hit with (p := y).
    + apply HMv. split; [rewrite in_app_iff; cbn; auto|assumption].
    + apply Hsto.
      * intros p Hp. rewrite in_app_iff in *. cbn in Hp. cbn. destruct Hp as [Hp|[Hp|Hp]].
        -- right. split; [auto|]. specialize (H1 p Hp); lia.
        -- left; auto.
        -- right. split; [auto|]. specialize (H3 p Hp); lia.
      * intros p Hp Hne. rewrite in_app_iff in *. cbn in *. destruct Hp as [Hp|[<-|Hp]]; auto. contradiction.
      * rewrite in_app_iff; cbn; auto.
      * apply (Hser y). rewrite in_app_iff; cbn; auto.
      * exact Hy.
  - apply add_carry with (k := bin y) (p := y).
    + apply HMnone. intros p Hi. rewrite in_app_iff in Hi. destruct Hi as [Hi|Hi].
      * specialize (H1 p Hi); lia.
      * specialize (H3 p Hi); lia.
    + assumption.
    + apply H1. rewrite in_app_iff; cbn; auto.
    + apply HMv. split; [rewrite !in_app_iff; cbn; auto|reflexivity].
    + intros j Hj. apply HMnone. intros p Hi. rewrite <- app_assoc in Hi.
      apply sorted_app_inv in Hvs as (Hv1 & _ & _). apply sorted_app_inv in Hv1 as (_ & _ & Hv1).
      rewrite in_app_iff in Hi. destruct Hi as [Hi|Hi].
      * specialize (Hv1 p y Hi (or_introl eq_refl)). unfold blt in Hv1. lia.
      * cbn in Hi. destruct Hi as [<-|Hi]; [lia|]. specialize (H3 p Hi); lia.
    + apply Hsto.
      * intros p Hi. rewrite in_app_iff in *. cbn in Hi. destruct Hi as [Hi|[Hi|Hi]].
        -- right. split; [auto|]. specialize (H1 p Hi); lia.
        -- left; auto.
        -- right. split; [auto|]. specialize (H3 p Hi); lia.
      * intros p Hi Hne. rewrite in_app_iff in *. cbn in *. tauto.
      * rewrite in_app_iff; cbn; auto.
      * apply (Hser y). rewrite !in_app_iff; cbn; auto.
      * reflexivity.
  - apply add_fresh.
    + apply HMnone. intros p Hi. rewrite in_app_iff in Hi. destruct Hi as [Hi|Hi].
      * specialize (H1 p Hi); lia.
      * specialize (H3 p Hi); lia.
    + destruct Hp as [Hp|Hp]; [left; assumption|right]. subst l1. cbn in *.
      intros j Hj. apply HMnone. intros p Hi. specialize (H3 p Hi). lia.
    + apply Hsto.
      * intros p Hi. rewrite in_app_iff in *. cbn in Hi. destruct Hi as [Hi|[Hi|Hi]].
        -- right. split; [auto|]. specialize (H1 p Hi); lia.
        -- left; auto.
        -- right. split; [auto|]. specialize (H3 p Hi); lia.
      * intros p Hi Hne. rewrite in_app_iff in *. cbn in *. tauto.
      * rewrite in_app_iff; cbn; auto.
      * reflexivity.
      * reflexivity.
Qed.

(** membership after reset *)
Lemma reset_In now b p' : Inv b ->
  (In p' (b_iter (b_reset now b)) <->
   exists p, In p (b_iter b) /\ t_persist p = true /\ p' = t_set_timestamp now p /\
     forall q, In q (b_iter b) -> series_key q = series_key p -> (bin q <= bin p)%Z).
Proof.
  intros (Hok & Hsort & _). unfold b_iter, b_reset. cbn [b_keys b_values].
  revert Hok Hsort. generalize (b_keys b) (b_values b). intros ks vs Hok.
  induction Hok as [|k v ks vs [Hv Hs] Hok IH]; intros Hsort.
  - cbn. split; [tauto|]. intros (p & [] & _).
  - inversion Hsort as [|? ? Hsort' Hlt]; subst. cbn [map iter_from]. rewrite in_app_iff, (IH Hsort').
    rewrite Forall_forall in Hv, Hlt.
    assert (Hdiff : forall p q, In p v -> In q (iter_from ks vs) -> series_key p <> series_key q).
    { intros p q Hp Hq E. destruct (Hv p Hp) as [_ H1]. destruct (iter_from_hash _ _ _ Hok Hq) as [_ H2].
      specialize (Hlt _ H2). unfold name_tag_hash in *. rewrite E in H1. lia. }
    split.
    + intros [Hin|(p & H1 & H2 & H3 & H4)].
      * destruct (vec_reset_cases now v) as [[-> E]|(l & p & E1 & E)].
        { rewrite E in Hin. destruct Hin. }
        rewrite E in Hin. destruct (t_persist p) eqn:Ep; [|destruct Hin].
        destruct Hin as [<-|[]]. subst v. exists p. split; [rewrite !in_app_iff; cbn; auto|].
        split; [assumption|]. split; [reflexivity|]. intros q Hq Es. rewrite in_app_iff in Hq.
        destruct Hq as [Hq|Hq].
        -- rewrite in_app_iff in Hq. destruct Hq as [Hq|[<-|[]]]; [|lia].
           apply sorted_app_inv in Hs as (_ & _ & Hs). specialize (Hs q p Hq (or_introl eq_refl)).
           unfold blt in Hs; lia.
        -- exfalso. apply (Hdiff p q); auto. rewrite in_app_iff; cbn; auto.
      * exists p. split; [rewrite in_app_iff; auto|]. split; [assumption|]. split; [assumption|].
        intros q Hq Es. rewrite in_app_iff in Hq. destruct Hq as [Hq|Hq]; [|auto].
        exfalso. apply (Hdiff q p); auto.
    + intros (p & H1 & H2 & H3 & H4). rewrite in_app_iff in H1. destruct H1 as [H1|H1].
      * left. destruct (vec_reset_cases now v) as [[-> E]|(l & p0 & E1 & E)]; [destruct H1|].
        rewrite E. subst v. assert (p = p0).
        { rewrite in_app_iff in H1. destruct H1 as [H1|[H1|[]]]; [|auto].
          apply sorted_app_inv in Hs as (_ & _ & Hs). specialize (Hs p p0 H1 (or_introl eq_refl)).
          unfold blt in Hs. specialize (H4 p0). rewrite !in_app_iff in H4. cbn in H4.
          assert (series_key p0 = series_key p).
          { destruct (Hv p) as [A1 A2]; [rewrite in_app_iff; auto|].
            destruct (Hv p0) as [B1 B2]; [rewrite in_app_iff; cbn; auto|].
            apply S_inj; auto. unfold name_tag_hash in *. congruence. }
          specialize (H4 ltac:(auto) ltac:(auto)). lia. }
        subst p0. rewrite H2. left; auto.
      * right. exists p. split; [assumption|]. split; [assumption|]. split; [assumption|].
        intros q Hq Es. apply H4; [rewrite in_app_iff; auto|assumption].
Qed.

Lemma reset_refines now b M : Inv b -> represents w (b_iter b) M ->
  exists M', represents w (b_iter (b_reset now b)) M' /\ reset_spec w M now M'.
Proof.
  intros HI HR. pose proof (Inv_reset now b HI) as HI'.
  exists (abs_of (b_iter (b_reset now b))). pose proof (abs_represents _ HI') as HR'. split; [assumption|].
  intros s k p'. rewrite (HR' s k p'), (reset_In now b p' HI). split.
  - intros ((p & H1 & H2 & -> & H4) & E1 & E2). split; [symmetry; exact E2|].
    exists (bin p), p. split; [|auto]. split.
    + apply HR. auto.
    + intros j q Hq. apply HR in Hq as (Q1 & Q2 & Q3). rewrite <- Q3. apply H4; [assumption|].
      rewrite Q2, <- E1. reflexivity.
  - intros (-> & k0 & p & [N1 N2] & Hp & ->). apply HR in N1 as (N1 & N3 & N4).
    split; [|split; [exact N3|reflexivity]].
    exists p. split; [assumption|]. split; [assumption|]. split; [reflexivity|].
    intros q Hq Es. rewrite N4. apply (N2 (bin q) q). apply HR. split; [assumption|]. split; [congruence|reflexivity].
Qed.

Lemma run_refines os : forall b M, Inv b -> represents w (b_iter b) M ->
  (forall t, In t (adds os) -> S (series_key t)) ->
  exists b' M', b_run hfun b os = Some b' /\ Inv b' /\ represents w (b_iter b') M' /\ run_spec w M os M'.
Proof.
  induction os as [|o os IH]; intros b M HI HR HS.
  - exists b, M. split; [reflexivity|]. split; [assumption|]. split; [assumption|apply run_nil].
  - cbn [b_run]. destruct o as [t|now]; cbn [b_step].
    + destruct (add_refines b t M HI) as (b1 & M1 & E1 & HI1 & HR1 & Hs1); [apply HS; cbn; auto|assumption|].
      rewrite E1. destruct (IH b1 M1 HI1 HR1) as (b2 & M2 & E2 & HI2 & HR2 & Hs2).
      { intros t' Ht'. apply HS. cbn. auto. }
      exists b2, M2. split; [assumption|]. split; [assumption|]. split; [assumption|].
      eapply run_cons; eauto.
    + destruct (reset_refines now b M HI HR) as (M1 & HR1 & Hs1).
      destruct (IH (b_reset now b) M1 (Inv_reset now b HI) HR1) as (b2 & M2 & E2 & HI2 & HR2 & Hs2).
      { intros t' Ht'. apply HS. cbn. auto. }
      exists b2, M2. split; [assumption|]. split; [assumption|]. split; [assumption|].
      eapply run_cons; eauto.
Qed.

Lemma run_Inv os b b' : Inv b -> (forall t, In t (adds os) -> S (series_key t)) ->
  b_run hfun b os = Some b' -> Inv b'.
Proof.
  intros HI HS E. destruct (run_refines os b (abs_of (b_iter b)) HI (abs_represents b HI) HS)
    as (b2 & M2 & E2 & HI2 & _). congruence.
Qed.

Lemma add_frame b t b' p : Inv b -> S (series_key t) -> b_add hfun b t = Some b' ->
  series_key p <> series_key t \/ bin p <> bin t ->
  (In p (b_iter b') <-> In p (b_iter b)).
Proof.
  intros HI HS E Hne. pose proof (abs_represents b HI) as HR.
  destruct (add_refines b t _ HI HS HR) as (b1 & M1 & E1 & HI1 & HR1 & Hs1).
  assert (b1 = b') by congruence. subst b1.
  specialize (HR (series_key p) (bin p) p). specialize (HR1 (series_key p) (bin p) p).
  assert (M1 (series_key p) (bin p) = abs_of (b_iter b) (series_key p) (bin p)).
  { destruct Hs1 as [q _ [_ H]|k q _ _ _ _ _ [_ H]|_ _ [_ H]]; apply H; assumption. }
  rewrite H in HR1. tauto.
Qed.

Lemma reset_idem now b : b_reset now (b_reset now b) = b_reset now b.
Proof.
  unfold b_reset. cbn [b_keys b_values b_width]. rewrite map_map.
  assert (E : map (fun x => vec_reset now (vec_reset now x)) (b_values b) = map (vec_reset now) (b_values b)).
  { apply map_ext. intros v. destruct (vec_reset_cases now v) as [[-> E]|(l & p & -> & ->)]; [reflexivity|].
    destruct (t_persist p) eqn:Ep; [|reflexivity]. unfold vec_reset; cbn. rewrite Ep. reflexivity. }
  rewrite E. reflexivity.
Qed.
End Proofs.

(** ** Counting, with no assumption on the hash *)
Section Count.
Context `{Q : QLib}.
Variable hfun : list string -> N.

Lemma concat_insert_nil (vs : list (list telemetry)) i :
  List.length (List.concat (insert_at i [] vs)) = List.length (List.concat vs).
Proof.
  revert i; induction vs as [|v vs IH]; intros [|i]; cbn; try reflexivity.
  rewrite !app_length, IH. reflexivity.
Qed.
Lemma concat_update (vs : list (list telemetry)) : forall i v v', nth_error vs i = Some v ->
  List.length (List.concat (update_at i (fun _ => v') vs)) + List.length v =
  List.length (List.concat vs) + List.length v'.
Proof.
  induction vs as [|u vs IH]; intros [|i] v v'; cbn; try discriminate.
  - intros [= ->]. rewrite !app_length; lia.
  - intros H. rewrite !app_length. specialize (IH i v v' H). lia.
Qed.

Lemma vec_add_len w v t : w <> 0%Z ->
  exists v' g, vec_add w v t = Some (v', g) /\ List.length v' = List.length v + (if g then 1 else 0).
Proof.
  intros Hw. unfold vec_add. replace (w =? 0)%Z with false by (symmetry; apply Z.eqb_neq; assumption).
  cbn [andb]. pose proof (bsearch_bound (fun probe => within w probe t) v) as Hb.
  destruct (bsearch _ v) as [i|i].
  - do 2 eexists; split; [reflexivity|]. rewrite update_at_length. lia.
  - destruct (andb (t_persist t) (0 <? i)) eqn:E.
    + apply andb_true_iff in E as [_ E]. apply Nat.ltb_lt in E.
      destruct (nth_error v (i - 1)) as [p|] eqn:En.
      * rewrite carry_eq. do 2 eexists; split; [reflexivity|]. rewrite insert_at_length. lia.
      * apply nth_error_None in En. lia.
    + do 2 eexists; split; [reflexivity|]. rewrite insert_at_length. lia.
Qed.

Definition Inv0 (w : Z) (b : buckets) : Prop :=
  List.length (b_keys b) = List.length (b_values b) /\ b_width b = w /\
  b_count b = N.min (N.of_nat (List.length (b_iter b))) u64_max.

Lemma add_Inv0 w b t : w <> 0%Z -> Inv0 w b -> exists b', b_add hfun b t = Some b' /\ Inv0 w b'.
Proof.
  intros Hw0 (Hl & Hw & Hc). unfold b_add.
  pose proof (bsearch_bound (fun probe => N.compare probe (name_tag_hash hfun t)) (b_keys b)) as Hb.
  unfold b_iter in Hc. rewrite iter_from_concat in Hc by assumption.
  assert (Hstep : forall keys values i, List.length keys = List.length values -> i < List.length keys ->
     List.length (List.concat values) = List.length (List.concat (b_values b)) ->
     exists b', match nth_error values i with
       | None => None
       | Some v => match vec_add (b_width b) v t with
          | None => None
          | Some (v', grown) => Some (mkBuckets keys (update_at i (fun _ => v') values)
                  (if grown then sat_succ (b_count b) else b_count b) (b_width b)) end end = Some b' /\ Inv0 w b').
  { intros keys values i H1 H2 H3. destruct (nth_error values i) as [v|] eqn:En.
    2:{ apply nth_error_None in En. lia. }
    rewrite Hw. destruct (vec_add_len w v t Hw0) as (v' & g & -> & Hlen).
    eexists; split; [reflexivity|]. unfold Inv0, b_iter. cbn [b_keys b_values b_width b_count].
    split; [rewrite update_at_length; assumption|]. split; [reflexivity|].
    rewrite iter_from_concat by (rewrite update_at_length; assumption).
    pose proof (concat_update values i v v' En) as Hcu. rewrite Hc.
    destruct g; unfold sat_succ, u64_max; lia. }
  destruct (bsearch _ (b_keys b)) as [i|i].
  - apply Hstep; auto.
  - apply Hstep.
    + rewrite !insert_at_length; lia.
    + rewrite insert_at_length; lia.
    + apply concat_insert_nil.
Qed.

Lemma reset_Inv0 w now b : Inv0 w b -> Inv0 w (b_reset now b).
Proof.
  intros (Hl & Hw & Hc). unfold Inv0, b_reset, b_iter. cbn [b_keys b_values b_width b_count].
  split; [rewrite map_length; assumption|]. split; [assumption|].
  rewrite iter_from_concat by (rewrite map_length; assumption).
  change 0%N with (N.min 0 u64_max) at 1. rewrite reset_count_fold; [reflexivity|].
  intros v Hv. apply in_map_iff in Hv as (u & <- & _).
  destruct (vec_reset_cases now u) as [[_ ->]|(l & p & _ & ->)]; [cbn; lia|].
  destruct (t_persist p); cbn; lia.
Qed.

Lemma run_Inv0 w os : w <> 0%Z -> forall b, Inv0 w b -> exists b', b_run hfun b os = Some b' /\ Inv0 w b'.
Proof.
  intros Hw. induction os as [|o os IH]; intros b HI; [exists b; auto|].
  cbn [b_run]. destruct o as [t|now]; cbn [b_step].
  - destruct (add_Inv0 w b t Hw HI) as (b1 & -> & HI1). auto.
  - apply IH, reset_Inv0; assumption.
Qed.
End Count.

(** ** The closed form of the specification when nothing is persisted *)
Section Plain.
Context `{Q : QLib}.
Variable w : Z.

Notation here := (BucketsSpec.here w).

Lemma here_iff s k t : here s k t = true <-> series_key t = s /\ pbin w t = k.
Proof.
  unfold here. rewrite andb_true_iff, Z.eqb_eq.
  destruct (list_eq_dec string_dec (series_key t) s) as [E|E]; intuition congruence.
Qed.

Lemma merged_snoc l t : merged (l ++ [t]) = Some (match merged l with Some p => t_add p t | None => t end).
Proof. destruct l as [|x l]; cbn; [reflexivity|]. rewrite fold_left_app. reflexivity. Qed.

Lemma plain_run ts : forall ts0 (M M' : amap),
  (forall s k, M s k = merged (filter (here s k) ts0)) ->
  Forall (fun t => t_persist t = false) ts ->
  run_spec w M (map BAdd ts) M' ->
  forall s k, M' s k = merged (filter (here s k) (ts0 ++ ts)).
Proof.
  induction ts as [|t ts IH]; intros ts0 M M' HM Hp Hrun s k.
  - inversion Hrun; subst. rewrite app_nil_r. apply HM.
  - inversion Hrun as [|? ? M1 ? ? Hop Hrun']; subst. inversion Hp as [|? ? Hpt Hp']; subst.
    replace (ts0 ++ t :: ts) with ((ts0 ++ [t]) ++ ts) by (rewrite <- app_assoc; reflexivity).
    apply IH with (M := M1); auto. clear IH Hrun Hrun' s k. intros s k.
    rewrite filter_app. cbn [filter].
    assert (Hcase : (here s k t = true /\ M1 s k = Some (match M s k with Some p => t_add p t | None => t end))
                 \/ (here s k t = false /\ M1 s k = M s k)).
    { cbn in Hop. destruct (here s k t) eqn:E.
      - left. split; [reflexivity|]. apply here_iff in E as [<- <-].
        destruct Hop as [p H1 [H2 _]|k' p _ H1 _ _ _ _|H1 _ [H2 _]].
        + rewrite H1. exact H2.
        + congruence.
        + rewrite H1. exact H2.
      - right. split; [reflexivity|].
        assert (Hne : s <> series_key t \/ k <> pbin w t).
        { destruct (list_eq_dec string_dec (series_key t) s) as [E1|E1]; [|left; congruence].
          destruct (Z.eq_dec (pbin w t) k) as [E2|E2]; [|right; congruence].
          assert (here s k t = true) by (apply here_iff; auto). congruence. }
        destruct Hop as [p _ [_ H2]|k' p _ _ _ _ _ [_ H2]|_ _ [_ H2]]; apply H2; assumption. }
    destruct Hcase as [[E H]|[E H]]; rewrite E, H.
    + rewrite merged_snoc, <- HM. reflexivity.
    + rewrite app_nil_r. apply HM.
Qed.
End Plain.
