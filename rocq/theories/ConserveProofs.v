(** * Counts on their way through the buffer. *)
From Verif Require Import Base BaseFacts FloatFacts TelemetryModel TelemetrySpec TelemetryProofs TelemetryProps BucketsModel BucketsSpec BucketsProofs BucketsProps ConsoleModel ConsoleSpec ConsoleProofs
  WavefrontModel WavefrontSpec WavefrontProofs WavefrontProps ArriveSpec ArriveProofs CountSpec CountProps ConserveSpec.
From Coq Require Import Lia.
Open Scope string_scope. Open Scope list_scope. Open Scope Z_scope.

Section Proofs.
Context `{Q : QLib}.
Notation tot := CountSpec.total.

Lemma tot_app a b : tot (a ++ b) = tot a + tot b.
Proof. unfold tot. induction a as [|x a IH]; cbn; [reflexivity|]. rewrite IH. lia. Qed.
Lemma tot_abs_pos a : 0 <= tot (map Z.abs a).
Proof. induction a as [|x a IH]; cbn; [lia|]. fold (tot (map Z.abs a)). lia. Qed.
Lemma tot_abs a : Z.abs (tot a) <= tot (map Z.abs a).
Proof. induction a as [|x a IH]; cbn; [lia|]. fold (tot (map Z.abs a)) (tot a). lia. Qed.
Lemma adds_up_app a b z1 z2 r1 r2 : adds_up a z1 r1 -> adds_up b z2 r2 -> adds_up (a ++ b) (z1 + z2) (r1 + r2).
Proof.
  intros (zs & F & T & R) (zs' & F' & T' & R'). exists (zs ++ zs'). split; [apply Forall2_app; assumption|]. rewrite map_app, !tot_app. lia.
Qed.
Lemma of_series_iff s t : of_series s t = true <-> series_key t = s.
Proof. unfold of_series. destruct (list_eq_dec string_dec (series_key t) s); split; congruence. Qed.

(** ** keys of a list, each once *)
Lemma sum_one (f : Z -> Z) k : forall ks, NoDup ks -> In k ks -> (forall j, j <> k -> f j = 0) -> tot (map f ks) = f k.
Proof.
  induction ks as [|a ks IH]; intros N I H; [destruct I|]. inversion N as [|? ? Na N']; subst. cbn. fold (tot (map f ks)). destruct I as [->|I].
  - assert (tot (map f ks) = 0); [|lia]. clear - Na H. induction ks as [|b ks IH]; [reflexivity|]. cbn. fold (tot (map f ks)). rewrite H by (intros ->; apply Na; left; reflexivity). rewrite IH; [lia|]. intros X. apply Na. right. exact X.
  - rewrite (IH N' I H), H by (intros ->; contradiction). lia.
Qed.
Lemma partition {A} (key : A -> Z) (g : A -> Z) l : forall ks, NoDup ks -> (forall x, In x l -> In (key x) ks) ->
  tot (map (fun k => tot (map g (filter (fun x => key x =? k) l))) ks) = tot (map g l).
Proof.
  induction l as [|x l IH]; intros ks N H.
  - cbn. clear. induction ks as [|k ks IH]; [reflexivity|]. cbn. exact IH.
  - change (tot (map g (x :: l))) with (g x + tot (map g l)). rewrite <- (IH ks N) by (intros y Hy; apply H; right; exact Hy).
    assert (S1 : tot (map (fun k => if key x =? k then g x else 0) ks) = g x).
    { rewrite (sum_one (fun k => if key x =? k then g x else 0) (key x) ks N (H x (or_introl eq_refl))); [rewrite Z.eqb_refl; reflexivity|]. intros j Hj. destruct (Z.eqb_spec (key x) j); congruence. }
    transitivity (tot (map (fun k => if key x =? k then g x else 0) ks) + tot (map (fun k => tot (map g (filter (fun x0 => key x0 =? k) l))) ks)); [|rewrite S1; reflexivity]. clear. induction ks as [|k ks IH]; [reflexivity|]. cbn [map]. unfold tot in *. cbn [fold_right]. rewrite IH. cbn [filter]. destruct (key x =? k); cbn [map fold_right]; lia.
Qed.

(** ** one series of the buffer between resets *)
Section Series.
Variable w : Z.
Variable s : list string.
Lemma epoch_series os : (forall t, In t (adds os) -> series_key t = s -> t_persist t = false) -> forall M, run_spec w empty_map os M ->
  forall k, M s k = merged (filter (here w s k) (since os)) /\ (forall p, M s k = Some p -> t_persist p = false).
Proof.
  induction os as [|o os IH] using rev_ind; intros Hp M R k; [inversion R; subst; split; [reflexivity|intros p [=]]|].
  assert (Hp1 : forall t, In t (adds os) -> series_key t = s -> t_persist t = false) by (intros t Ht; apply Hp; unfold adds; rewrite flat_map_app; apply in_or_app; left; exact Ht).
  apply run_spec_app in R as (M1 & R1 & R2). specialize (IH Hp1 M1 R1). inversion R2 as [|? ? M2 ? ? Ho Hr]; subst. inversion Hr; subst. clear R2 Hr. destruct o as [t|now].
  - change [BAdd t] with (map BAdd [t]). rewrite since_adds, filter_app. cbn [filter]. cbn in Ho. destruct (IH k) as [I1 I2].
    destruct (here w s k t) eqn:E.
    + apply here_iff in E as [E1 E2]. assert (Ht : t_persist t = false) by (apply Hp; [unfold adds; rewrite flat_map_app; apply in_or_app; right; left; reflexivity|exact E1]). rewrite merged_snoc, <- I1. rewrite <- E1, <- E2 in *.
      destruct Ho as [p H1 [H2 _]|k' p _ H1 _ _ _ _|H1 _ [H2 _]]; [|congruence|]; rewrite H1, H2; split; try reflexivity; intros q [= <-]; exact Ht.
    + assert (Hne : s <> series_key t \/ k <> pbin w t).
      { destruct (list_eq_dec string_dec (series_key t) s) as [E1|E1]; [|left; congruence]. destruct (Z.eq_dec (pbin w t) k) as [E2|E2]; [|right; congruence].
        assert (here w s k t = true) by (apply here_iff; auto). congruence. }
      rewrite app_nil_r. assert (HM : M s k = M1 s k) by (destruct Ho as [p _ [_ H2]|k' p _ _ _ _ _ [_ H2]|_ _ [_ H2]]; apply H2; assumption). rewrite HM. auto.
  - replace (since (os ++ [BReset now])) with (@nil telemetry) by (unfold since; rewrite fold_left_app; reflexivity). cbn [filter merged].
    destruct (M s k) as [p|] eqn:E; [|split; [reflexivity|intros p [=]]]. exfalso. apply Ho in E as (_ & k0 & p0 & [Hk0 _] & E & _). rewrite (proj2 (IH k0) p0 Hk0) in E. discriminate.
Qed.

Variable n : telemetry -> Z.
Lemma merged_counts l p : Forall (fun t => counts_as t (n t)) l -> tot (map Z.abs (map n l)) <= 2 ^ 53 -> merged l = Some p -> counts_as p (tot (map n l)).
Proof.
  intros F C E. destruct l as [|t0 r]; [discriminate|]. injection E as <-. inversion F as [|? ? F0 Fr]; subst. cbn in C. fold (tot (map Z.abs (map n r))) in C.
  destruct (fold_whole (map n r) (n t0) C) as [E _]. change (tot (map n (t0 :: r))) with (n t0 + tot (map n r)). unfold counts_as. rewrite <- E. clear E C F. unfold counts_as in F0. revert F0. generalize (fofZ (n t0)). revert t0.
  induction Fr as [|t r Ft _ IH]; intros t0 x F0; cbn [fold_left map]; [exact F0|]. apply IH. unfold t_add. cbn [t_value]. rewrite F0. unfold counts_as in Ft. rewrite Ft. reflexivity.
Qed.

Lemma buffer_adds_up hfun os b : 0 < w -> no_collision hfun (adds os) -> b_run hfun (b_new w) os = Some b ->
  (forall t, In t (adds os) -> series_key t = s -> t_persist t = false /\ counts_as t (n t)) ->
  incl (since os) (adds os) -> tot (map Z.abs (map n (filter (of_series s) (since os)))) <= 2 ^ 53 ->
  adds_up (filter (of_series s) (b_iter b)) (tot (map n (filter (of_series s) (since os)))) (tot (map Z.abs (map n (filter (of_series s) (since os))))).
Proof.
  intros Hw Hn Hr Hc Hi Hroom. destruct (iter_lists hfun w os b Hw Hn Hr) as (M & RM & LM & ND).
  assert (He := epoch_series os (fun t Ht Hs => proj1 (Hc t Ht Hs)) M RM). set (L := filter (of_series s) (since os)) in *. set (P := filter (of_series s) (b_iter b)).
  assert (HL : forall k, filter (here w s k) (since os) = filter (fun t => pbin w t =? k) L).
  { intros k. unfold L. generalize (since os). clear. induction l as [|t l IH]; [reflexivity|]. cbn [filter]. unfold here at 1, of_series at 1. destruct (list_eq_dec string_dec (series_key t) s); cbn [andb filter]; rewrite IH; reflexivity. }
  assert (HLc : Forall (fun t => counts_as t (n t)) L).
  { apply Forall_forall. intros t Ht. apply filter_In in Ht as [Ht Hs]. apply of_series_iff in Hs. exact (proj2 (Hc t (Hi t Ht) Hs)). }
  set (ks := map (pbin w) P).
  assert (Nk : NoDup ks).
  { unfold ks, P. clear - ND. induction (b_iter b) as [|p l IH]; [constructor|]. cbn in ND. inversion ND as [|? ? N1 N2]; subst. cbn [filter]. destruct (of_series s p) eqn:E; [|exact (IH N2)]. cbn [map]. constructor; [|exact (IH N2)].
    intros X. apply N1. apply in_map_iff in X as (q & Eq & Hq). apply filter_In in Hq as [Hq Hs]. apply of_series_iff in Hs, E. apply in_map_iff. exists q. split; [congruence|exact Hq]. }
  assert (Kc : forall t, In t L -> In (pbin w t) ks).
  { intros t Ht. destruct (He (pbin w t)) as [E _]. rewrite HL in E. assert (Hin : In t (filter (fun u => pbin w u =? pbin w t) L)) by (apply filter_In; split; [exact Ht|apply Z.eqb_refl]).
    destruct (filter (fun u => pbin w u =? pbin w t) L) as [|t0 r]; [destruct Hin|]. cbn [merged] in E. apply LM in E as (E1 & E2 & E3). unfold ks. apply in_map_iff. eexists. split; [exact E3|]. apply filter_In. split; [exact E1|]. apply of_series_iff. exact E2. }
  set (val := fun k => tot (map n (filter (fun t => pbin w t =? k) L))). exists (map val ks). split; [|split].
  - unfold ks. rewrite map_map. assert (G : forall p, In p P -> counts_as p (val (pbin w p))).
    { intros p Hp. apply filter_In in Hp as [Hp Hs]. apply of_series_iff in Hs. assert (E : M s (pbin w p) = Some p) by (apply LM; auto). rewrite (proj1 (He (pbin w p))), HL in E.
      refine (merged_counts _ p _ _ E).
      - rewrite Forall_forall in HLc |- *. intros t Ht. apply HLc. apply filter_In in Ht. apply Ht.
      - refine (Z.le_trans _ _ _ _ Hroom). clear. induction L as [|t l IH]; [reflexivity|]. cbn [filter]. destruct (pbin w t =? pbin w p); cbn [map]; unfold tot in *; cbn [fold_right]; lia. }
    clear - G. induction P as [|p l IH]; constructor; [apply G; left; reflexivity|]. apply IH. intros q Hq. apply G. right. exact Hq.
  - exact (partition (pbin w) n L ks Nk Kc).
  - rewrite (map_map n Z.abs L), (map_map val Z.abs ks). rewrite <- (partition (pbin w) (fun t => Z.abs (n t)) L ks Nk Kc). unfold val. clear. induction ks as [|k ks IH]; [reflexivity|]. cbn [map]. unfold tot in *. cbn [fold_right]. apply Z.add_le_mono; [|exact IH].
    pose proof (tot_abs (map n (filter (fun t => pbin w t =? k) L))) as A. rewrite map_map in A. exact A.
Qed.
End Series.

(** ** zeros of pads add nothing *)
Lemma pads_add_up s now l z r : forall pads points, Forall2 (shown now) pads points -> (forall t ts, In (PZero t ts) pads -> In t l) -> (forall t, In t l -> series_key t = s -> exists k, counts_as t k) ->
  adds_up (filter (of_series s) (originals pads)) z r -> adds_up (filter (of_series s) points) z r.
Proof.
  intros pads points F Hz Hl. revert z r. induction F as [|p t pads points Hs _ IH]; intros z r A; [exact A|].
  assert (Hz' : forall t ts, In (PZero t ts) pads -> In t l) by (intros; eapply Hz; right; eassumption). specialize (IH Hz'). destruct p as [x ts|x]; [change (zero_point now x ts = Some t) in Hs|change (t = x) in Hs]; cbn [originals flat_map app] in A; fold (originals pads) in A.
  - destruct (IH _ _ A) as (zs & Fz & T & R). cbn [filter]. destruct (of_series s t) eqn:E; [|exists zs; auto]. exists (0 :: zs). split; [constructor; [|exact Fz]|cbn; fold (tot zs) (tot (map Z.abs zs)); lia].
    apply of_series_iff in E. pose proof (Hz x ts (or_introl eq_refl)) as Hx.
    assert (Ek : series_key t = series_key x) by (clear - Hs; unfold zero_point, harden, thaw, b_value, t_kind in Hs; destruct (t_value x); cbn -[fratio fleb binary_normalize fofZ] in Hs; try (destruct (h_new _)); try discriminate; injection Hs as <-; reflexivity).
    destruct (Hl x Hx ltac:(congruence)) as (k & Hk). unfold counts_as in Hk. unfold zero_point, harden, thaw, b_value, t_kind in Hs. rewrite Hk in Hs. cbn -[fofZ] in Hs. injection Hs as <-. reflexivity.
  - subst x. cbn [filter] in *. destruct (of_series s t); [|exact (IH _ _ A)]. destruct A as (zs & Fz & T & R). inversion Fz as [|? k ? zs' Ft Fr]; subst. cbn in R. fold (tot (map Z.abs zs')) in R.
    destruct (IH (tot zs') (r - Z.abs k)) as (zs2 & F2 & T2 & R2); [exists zs'; split; [exact Fr|]; split; [reflexivity|lia]|]. exists (k :: zs2). split; [constructor; assumption|]. cbn. fold (tot zs2) (tot zs') (tot (map Z.abs zs2)). lia.
Qed.
Lemma woven_zeros R l out t ts : woven R l out -> In (PZero t ts) out -> exists x, R t x.
Proof.
  intros W. induction W as [|zs x l out _ F _ IH]; intros H; [destruct H|]. apply in_app_or in H as [H|[H|H]]; [|discriminate|exact (IH H)].
  rewrite Forall_forall in F. destruct (F _ H) as (t' & ts' & E & HR). injection E as <- <-. eauto.
Qed.
End Proofs.
