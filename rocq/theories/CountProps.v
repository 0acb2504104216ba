(** * Counting with floats: C153, and what of C152 depends on arithmetic. *)
From Verif Require Import Base PrometheusModel FloatFacts TelemetryModel TelemetryProofs TelemetryProps QExample BucketsModel BucketsSpec BucketsProps ParseModel ParseSpec ParseProofs ParseProps NumberModel NumberSpec NumberProofs RoundSpec RoundProofs NumberProps ArithProofs CountSpec
  InternalModel InternalSpec InternalProps InfluxModel InfluxSpec InfluxProps.
Open Scope string_scope. Open Scope list_scope. Open Scope Z_scope.

Lemma fold_whole zs : forall z0, Z.abs z0 + CountSpec.total (map Z.abs zs) <= 2 ^ 53 -> fold_left fadd (map fofZ zs) (fofZ z0) = fofZ (z0 + CountSpec.total zs) /\ Z.abs (z0 + CountSpec.total zs) <= 2 ^ 53.
Proof.
  induction zs as [|z zs IH]; intros z0 H; cbn [map fold_left CountSpec.total fold_right] in *; [rewrite Z.add_0_r; split; [reflexivity|lia]|].
  assert (P : 0 <= fold_right Z.add 0 (map Z.abs zs)) by (clear; induction zs; cbn; lia). rewrite fadd_whole by lia. fold (CountSpec.total zs). fold (CountSpec.total (map Z.abs zs)) in *.
  replace (z0 + (z + CountSpec.total zs)) with ((z0 + z) + CountSpec.total zs) by lia. apply IH. lia.
Qed.

(** ** C153: whole counts add up exactly *)
(** points merged *)
Theorem C153_merged : forall (Q : QLib) (t0 : telemetry) (ts : list telemetry) (z0 : Z) (zs : list Z), countable (z0 :: zs) ->
  t_sum t0 = Some (fofZ z0) -> Forall2 (fun t z => t_sum t = Some (fofZ z)) ts zs ->
  t_sum (fold_left t_add ts t0) = Some (fofZ (CountSpec.total (z0 :: zs))).
Proof.
  intros Q t0 ts z0 zs C H0 H. rewrite (C06_merge_sum_fold Q ts t0 (fofZ z0) (map fofZ zs) H0).
  - unfold countable in C. cbn [map CountSpec.total fold_right] in C. destruct (fold_whole zs z0 C) as [-> _]. reflexivity.
  - clear - H. induction H; constructor; assumption.
Qed.
(** samples of a summary *)
Theorem C153_samples : forall (Q : QLib) (t0 : telemetry) (ts : list telemetry) (z0 : Z) (zs : list Z), countable (z0 :: zs) ->
  Forall2 (fun t z => t_kind t = MSummarize /\ t_override_sum t = None /\ t_samples_sum t = Some (fofZ z)) (t0 :: ts) (z0 :: zs) ->
  t_samples_sum (fold_left t_add ts t0) = Some (fofZ (CountSpec.total (z0 :: zs))).
Proof.
  intros Q t0 ts z0 zs C H. inversion H as [|? ? ? ? (K0 & O0 & S0) H']; subst. clear H.
  assert (G : forall ts zs, Forall2 (fun t z => t_kind t = MSummarize /\ t_override_sum t = None /\ t_samples_sum t = Some (fofZ z)) ts zs ->
    forall t0 x, t_kind t0 = MSummarize -> t_override_sum t0 = None -> t_samples_sum t0 = Some x -> t_samples_sum (fold_left t_add ts t0) = Some (fold_left fadd (map fofZ zs) x)).
  { clear. induction 1 as [|t z ts zs (K & O & S) _ IH]; intros t0 x K0 O0 S0; [exact S0|]. cbn [fold_left map]. apply IH.
    - rewrite C06_merge_kind. exact K.
    - exact O0.
    - apply (proj2 (C06_merge_summary_sum Q t0 t x (fofZ z) K O0 O S)); assumption. }
  rewrite (G ts zs H' t0 (fofZ z0) K0 O0 S0). unfold countable in C. cbn [map CountSpec.total fold_right] in C. destruct (fold_whole zs z0 C) as [-> _]. reflexivity.
Qed.
Lemma opp_whole z : Z.abs z < 2 ^ 53 -> (if z <? 0 then SFopp (fofZ (Z.abs z)) else fofZ z) = fofZ z.
Proof.
  intros H. destruct (Z.ltb_spec z 0) as [L|L]; [|reflexivity]. destruct z as [|k|k]; try lia. cbn [Z.abs] in *. destruct (whole_float k ltac:(lia)) as (m & e & F & E).
  destruct (fofZ_at false k m e F E) as [-> _]. destruct (fofZ_at true k m e F E) as [-> _]. reflexivity.
Qed.
(** counters as clients write them: each name and bin of the buffer holds the total *)
Theorem C153_counted : forall (Q : QLib) named cfg (base : telemetry) hfun w (ls : list count_line), 0 < w -> cfg_ok cfg -> Forall well_written ls -> countable (map cl_count ls) ->
  exists ts, Forall2 (fun l t => parse_statsd (parse_f64 named) cfg (cl_time l) base (count_text l) [] = PReturn true [t]) ls ts /\
    (no_collision hfun ts -> exists b, b_run hfun (b_new w) (map BAdd ts) = Some b /\
      forall name k, counts_of w name k ls <> [] ->
        exists p, (forall q, In q (b_iter b) /\ t_name q = name /\ pbin w q = k <-> q = p) /\ t_tags p = t_tags base /\ t_value p = VSum (fofZ (CountSpec.total (counts_of w name k ls)))).
Proof.
  intros Q named cfg base hfun w ls Hw Hc Hwr C.
  assert (G : exists ts, Forall2 (fun l t => parse_statsd (parse_f64 named) cfg (cl_time l) base (count_text l) [] = PReturn true [t] /\
      t_name t = cl_name l /\ t_timestamp t = cl_time l /\ t_tags t = t_tags base /\ t_persist t = false /\ t_value t = VSum (fofZ (cl_count l))) ls ts).
  { clear C. induction Hwr as [|l ls (W1 & W2 & W3 & W4 & W5 & W6 & W7) _ (ts & IH)]; [exists []; constructor|].
    assert (P : parse_f64 named (cl_text l) = Some (fofZ (cl_count l))) by (rewrite (C151_whole named (cl_text l) (cl_count l) W4 ltac:(lia)), opp_whole by lia; reflexivity).
    destruct (C28_gauge_and_counter Q (parse_f64 named) cfg (cl_time l) base (cl_name l) (cl_text l) _ false (cl_text l) _ Hc W1 W2 W3 P P) as (_ & G & _).
    destruct (G W7) as (t & E & H1 & H2 & H3 & H4 & H5). exists (t :: ts). constructor; [|exact IH]. exact (conj E (conj H1 (conj H2 (conj H3 (conj H4 H5))))). }
  destruct G as (ts & G). exists ts. split; [clear - G; induction G as [|? ? ? ? H]; constructor; [apply H|assumption]|]. intros Hn.
  assert (Hp : Forall (fun t => t_persist t = false) ts) by (clear - G; induction G as [|? ? ? ? H]; constructor; [apply H|assumption]).
  destruct (C01_bin_holds_in_order_merge Q hfun w ts Hw Hn Hp) as (b & Hb & Hm). exists b. split; [exact Hb|]. intros name k Hne.
  set (s := name :: flat_tags (t_tags base)).
  assert (F : Forall2 (fun t z => t_sum t = Some (fofZ z) /\ t_tags t = t_tags base) (filter (here w s k) ts) (counts_of w name k ls)).
  { clear - G. unfold counts_of. induction G as [|l t ls ts (_ & H1 & H2 & H3 & _ & H5) _ IH]; [constructor|]. cbn [filter].
    assert (E : here w s k t = andb (String.eqb (cl_name l) name) (tbin w (cl_time l) =? k)).
    { unfold here, pbin, series_key. rewrite H1, H2, H3. f_equal. subst s. destruct (list_eq_dec string_dec (cl_name l :: flat_tags (t_tags base)) (name :: flat_tags (t_tags base))) as [E|E]; destruct (String.eqb_spec (cl_name l) name) as [E'|E']; try reflexivity; exfalso; congruence. }
    rewrite E. destruct (andb _ _); [|exact IH]. cbn [map]. constructor; [|exact IH]. split; [unfold t_sum, value_sum; rewrite H5; reflexivity|exact H3]. }
  assert (Cf : countable (counts_of w name k ls)).
  { clear - C. unfold countable, counts_of in *. eapply Z.le_trans; [|exact C]. clear C. induction ls as [|l ls IH]; [reflexivity|]. cbn [filter]. destruct (andb _ _); cbn [map CountSpec.total fold_right] in *; unfold CountSpec.total in *; lia. }
  destruct (filter (here w s k) ts) as [|t0 r] eqn:Ef; [exfalso; apply Hne; inversion F; reflexivity|].
  destruct (counts_of w name k ls) as [|z0 zs]; [inversion F|]. inversion F as [|? ? ? ? [S0 T0] F']; subst. exists (fold_left t_add r t0).
  destruct (C06_merge_keeps_identity Q r t0) as (I1 & I2 & I3).
  assert (Hs : t_sum (fold_left t_add r t0) = Some (fofZ (CountSpec.total (z0 :: zs)))).
  { apply (C153_merged Q t0 r z0 zs Cf S0). clear - F'. induction F' as [|? ? ? ? H]; constructor; [apply H|assumption]. }
  split; [|split; [rewrite I2; exact T0|unfold t_sum, value_sum in Hs; destruct (t_value (fold_left t_add r t0)); try discriminate; congruence]].
  assert (Hin : In t0 (filter (here w s k) ts)) by (rewrite Ef; left; reflexivity). apply filter_In in Hin as [Hin0 Hh]. unfold here in Hh. destruct (list_eq_dec string_dec (series_key t0) s) as [Es|]; [|discriminate]. cbn [andb] in Hh. apply Z.eqb_eq in Hh.
  assert (Ep : series_key (fold_left t_add r t0) = s) by (unfold series_key in *; rewrite I1, I2; exact Es).
  intros q. split.
  - intros (Q1 & Q2 & Q3). pose proof (proj1 (Hm (series_key q) k q) (conj Q1 (conj eq_refl Q3))) as M. assert (Eq : series_key q = s).
    { destruct (filter (here w (series_key q) k) ts) as [|u us] eqn:Eu; [discriminate M|]. assert (Hu : In u (filter (here w (series_key q) k) ts)) by (rewrite Eu; left; reflexivity). apply filter_In in Hu as [Hu1 Hu2].
      unfold here in Hu2. destruct (list_eq_dec string_dec (series_key u) (series_key q)) as [E|]; [|discriminate]. assert (Tu : t_tags u = t_tags base).
      { clear - G Hu1. induction G as [|? ? ? ? H _ IH]; [destruct Hu1|]. destruct Hu1 as [<-|Hu1]; [apply H|auto]. }
      rewrite <- E. unfold series_key in *. rewrite Tu in *. injection E as E1 E2. subst s. congruence. }
    rewrite Eq, Ef in M. cbn [merged] in M. congruence.
  - intros ->. destruct (proj2 (Hm s k (fold_left t_add r t0))) as (A1 & A2 & A3); [rewrite Ef; reflexivity|]. split; [exact A1|]. split; [|exact A3]. subst s. unfold series_key in Ep. injection Ep as Ep _. exact Ep.
Qed.
(** and the counts of cernan itself: what was reported of a counter adds up to what was counted and is not waiting *)
Theorem C153_internal : forall (Q : QLib) (l : list iact) (i : nat) (name : string),
  nth_error counters i = Some (name, MSum) -> only_added i l -> (added i l <= 2 ^ 53)%N ->
  exists xs, Forall2 (fun t x => t_sum t = Some x) (named name (points (is_out (irun true istate_init l)))) xs /\
    fold_left fadd xs (fofZ 0) = fofZ (Z.of_N (added i l - is_cells (irun true istate_init l) i)).
Proof.
  intros Q l i name Hi Ho Ha. destruct (C57_conserved_partial Q l i name MSum Hi Ho ltac:(lia)) as (vs & E & T & _). set (c := is_cells _ i) in *. clearbody c. exists (map fofZ (map (fun v => Z.of_N (fst v)) vs)). split.
  - rewrite E. clear. induction vs as [|v vs IH]; constructor; [reflexivity|exact IH].
  - assert (X : CountSpec.total (map (fun v => Z.of_N (fst v)) vs) = Z.of_N (added i l - c) /\ CountSpec.total (map Z.abs (map (fun v => Z.of_N (fst v)) vs)) = Z.of_N (added i l - c)).
    { replace (added i l - c)%N with (InternalSpec.total (map fst vs)) by lia. clear. unfold CountSpec.total, InternalSpec.total. induction vs as [|v vs [IH1 IH2]]; [split; reflexivity|]. cbn [map fold_right]. rewrite IH1, IH2. split; lia. }
    destruct X as [X1 X2]. destruct (fold_whole (map (fun v => Z.of_N (fst v)) vs) 0) as [-> _]; [rewrite X2; lia|]. rewrite X1. reflexivity.
Qed.
(** From 2^53 on a counter counting ones stands still. *)
Theorem C153_stalls : forall n, fold_left fadd (repeat (fofZ 1) n) (fofZ (2 ^ 53)) = fofZ (2 ^ 53).
Proof. induction n as [|n IH]; [reflexivity|]. cbn [repeat fold_left]. replace (fadd (fofZ (2 ^ 53)) (fofZ 1)) with (fofZ (2 ^ 53)) by reflexivity. exact IH. Qed.

(** "a:3|c" and "a:-1|c" in one bin, "a:9|c" in the next, "b:7|c" *)
Definition xcounts : list count_line := [mkCount 20 "a" "3" 3; mkCount 21 "b" "7" 7; mkCount 22 "a" "-1" (-1); mkCount 30 "a" "+9" 9].
Example C153_ex : Forall well_written xcounts /\ countable (map cl_count xcounts) /\ counts_of 10 "a" 2 xcounts = [3; -1] /\
  Forall2 (fun l t => parse_statsd (parse_f64 names_1_55) xcfg (cl_time l) xbase (count_text l) [] = PReturn true [t]) xcounts
    [pt "a" (VSum (fofZ 3)) false None 20; pt "b" (VSum (fofZ 7)) false None 21; pt "a" (VSum (fofZ (-1))) false None 22; pt "a" (VSum (fofZ 9)) false None 30] /\
  t_sum (t_add (pt "a" (VSum (fofZ 3)) false None 20) (pt "a" (VSum (fofZ (-1))) false None 22)) = Some (fofZ 2) /\
  t_samples_sum (t_add (pt "a" (VQuant [] (fofZ 3)) false None 20) (pt "a" (VQuant [] (fofZ 4)) false None 22)) = Some (fofZ 7) /\
  fold_left fadd [fofZ 1; fofZ 1] (fofZ (2 ^ 53)) <> fofZ (2 ^ 53 + 2).
Proof.
  assert (W : forall d, 0 <= d <= 9 -> written (String (ascii_of_N (Z.to_N (48 + d))) "") (d * 1 + 0)) by (intros d Hd; apply (wr_digit d "" 0 Hd); constructor).
  split; [|split; [unfold countable; cbn; lia|split; [reflexivity|split; [repeat constructor; vm_compute; reflexivity|split; [vm_compute; reflexivity|split; [vm_compute; reflexivity|vm_compute; discriminate]]]]]].
  repeat apply Forall_cons; [| | | |constructor]; (split; [discriminate|]; split; [cbn; repeat split; discriminate|]; split; [cbn; repeat split; discriminate|]; split; [|split; [discriminate|split; [reflexivity|reflexivity]]]).
  - exists false, "3", 3. split; [constructor; split; discriminate|]. split; [discriminate|]. split; [apply (W 3); lia|reflexivity].
  - exists false, "7", 7. split; [constructor; split; discriminate|]. split; [discriminate|]. split; [apply (W 7); lia|reflexivity].
  - exists true, "1", 1. split; [constructor|]. split; [discriminate|]. split; [apply (W 1); lia|reflexivity].
  - exists false, "9", 9. split; [constructor|]. split; [discriminate|]. split; [apply (W 9); lia|reflexivity].
Qed.
Print Assumptions C153_merged.
Print Assumptions C153_samples.
Print Assumptions C153_counted.
Print Assumptions C153_internal.
Print Assumptions C153_stalls.

(** ** C152: exactly which lines *)
Lemma scaled_number st : scaled st = fnan <-> no_value st.
Proof.
  unfold scaled, no_value. destruct (st_rate st) as [r|].
  - rewrite fmul_number, frecip_number. split.
    + intros [H|[H|[H|H]]]; [left; exact H|right; exists r; auto|right; exists r; auto|right; exists r; auto].
    + intros [H|(r' & [= <-] & [H|[H|H]])]; auto.
  - split; [auto|]. intros [H|(r' & [=] & _)]. exact H.
Qed.
(** A sink that would flush panics after a packet of such lines if, and only if, one of them has no value *)
Theorem C152_exact_partial : forall (Q : QLib) pf (show_f : f64 -> string) (show_n : N -> string) cfg now (base : telemetry) packet ts, shows show_f -> cfg_ok cfg ->
  parse_statsd pf cfg now base packet [] = PReturn true ts -> (forall src st, In src (ParseModel.lines packet) -> says pf src st -> plain cfg st) ->
  forall tags s c ans, Forall (no_nan show_f) (i_aggrs s) ->
  (i_flush show_f show_n tags (fold_left (fun s t => i_deliver t s) ts s) c ans = IPanic <-> exists src st, In src (ParseModel.lines packet) /\ says pf src st /\ st_type st <> TTimer /\ st_type st <> THistogram /\ no_value st).
Proof.
  intros Q pf sf sn cfg now base packet ts Hsh Hc P Pl tags s c ans Hs. rewrite (proj1 (C58_refuted Q sf sn Hsh tags _ c ans)).
  assert (A : forall later s, i_aggrs (fold_left (fun s t => i_deliver t s) later s) = i_aggrs s ++ later).
  { clear. induction later as [|x later IH]; intros s; [rewrite app_nil_r; reflexivity|]. cbn [fold_left]. rewrite IH. cbn [i_deliver i_aggrs]. rewrite <- app_assoc. reflexivity. }
  rewrite A. destruct (proj1 (proj1 (C27_statsd_grammar Q pf cfg now base packet Hc) ts) P) as [_ F]. clear P A.
  assert (D : forall x : f64, x = fnan \/ x <> fnan) by (intros [ | | | ]; (left; reflexivity) || (right; discriminate)).
  assert (G : forall src t, In src (ParseModel.lines packet) -> (exists st, says pf src st /\ means cfg now base st t) -> (no_nan sf t -> forall st, says pf src st -> st_type st <> TTimer -> st_type st <> THistogram -> ~ no_value st) /\ (~ no_nan sf t -> exists st, says pf src st /\ st_type st <> TTimer /\ st_type st <> THistogram /\ no_value st)).
  { intros src t Hin (st & S & M). split.
    - intros N st' S' T1 T2 V. destruct (line_says pf cfg now base src st' Hc S') as (t' & _ & M'). assert (t = t') by exact (C27_unambiguous Q pf cfg now base src st t st' t' Hc S M S' M'). subst t'.
      apply scaled_number in V. destruct M' as (_ & _ & _ & _ & _ & M'). unfold no_nan, measurements in N. destruct (st_type st'); try contradiction; destruct M' as [_ E]; rewrite E in N.
      + destruct (st_signed st'); inversion N as [|? ? X]; subst; exact (X V).
      + inversion N as [|? ? X]; subst; exact (X V).
    - intros N. specialize (Pl src st Hin S). unfold plain in Pl. destruct M as (_ & _ & _ & _ & _ & M). assert (Hist : forall h, t_value t = VHist h -> False).
      { intros h E. apply N. unfold no_nan, measurements. rewrite E. apply Forall_map, Forall_forall. intros b _. cbn [snd]. apply fofZ_number. }
      assert (V : forall x, t_value t = VSum x \/ t_value t = VSet x -> x = fnan).
      { intros x E. destruct (D x) as [|Hx]; [assumption|]. exfalso. apply N. unfold no_nan, measurements. destruct E as [E|E]; rewrite E; (constructor; [exact Hx|constructor]). }
      exists st. split; [exact S|]. destruct (st_type st) eqn:T.
      + split; [discriminate|]. split; [discriminate|]. apply scaled_number, V. destruct M as [_ E]. rewrite E. destruct (st_signed st); auto.
      + split; [discriminate|]. split; [discriminate|]. apply scaled_number, V. destruct M as [_ E]. auto.
      + exfalso. destruct M as [_ M]. destruct (first_mask (sc_masks cfg) (st_name st)); [|contradiction]. destruct M as (h & _ & E). exact (Hist _ E).
      + exfalso. destruct M as [_ M]. destruct (first_mask (sc_masks cfg) (st_name st)); [|contradiction]. destruct M as (h & _ & E). exact (Hist _ E). }
  assert (Dn : forall t, no_nan sf t \/ ~ no_nan sf t).
  { intros t. unfold no_nan. induction (measurements sf t) as [|m l [IH|IH]]; [left; constructor| |right; intros X; inversion X; auto]. destruct (D (snd m)) as [E|E]; [right; intros X; inversion X; auto|left; constructor; assumption]. }
  revert F G. clear - Hs Dn. generalize (ParseModel.lines packet) as l. intros l F G. rewrite Forall_app. split.
  - intros H. assert (Ht : ~ Forall (no_nan sf) ts) by (intros X; apply H; split; assumption). clear H Hs. induction F as [|src t l ts H F IH]; [exfalso; apply Ht; constructor|].
    destruct (Dn t) as [N|N].
    + destruct IH as (src' & st & H1 & H2); [intros src' t' Hin; apply G; right; exact Hin|intros X; apply Ht; constructor; assumption|]. exists src', st. split; [right; exact H1|exact H2].
    + destruct (proj2 (G src t (or_introl eq_refl) H) N) as (st & H2). exists src, st. split; [left; reflexivity|exact H2].
  - intros (src & st & H1 & H2 & H3 & H4 & H5) [_ Ht]. revert H1. induction F as [|src0 t l ts H F IH]; intros H1; [exact H1|]. inversion Ht as [|? ? N Ht']; subst. destruct H1 as [->|H1].
    + exact (proj1 (G src t (or_introl eq_refl) H) N st H2 H3 H4 H5).
    + apply IH; auto. intros src' t' Hin; apply G; right; exact Hin.
Qed.
(** "a:1|c|@0.5" has a value; "b:-0|g|@1e-320" has none: the reciprocal of the rate is boundless *)
Example C152_ex_exact :
  (exists st, says (parse_f64 names_1_55) "b:-0|g|@1e-320" st /\ no_value st /\ @plain xQ xcfg st) /\
  parse_statsd (parse_f64 names_1_55) xcfg 7 xbase ("a:1|c|@0.5" ++ String "010" "b:-0|g|@1e-320") [] = PReturn true [pt "a" (VSum (fofZ 2)) false None 7; pt "b" (VSum fnan) true None 7].
Proof.
  split; [|vm_compute; reflexivity]. eexists. split; [|split].
  - apply (says_sampled (parse_f64 names_1_55) _ "b" "-0" (S754_zero true) TGauge true "1e-320" (S754_finite false 2024 (-1074))); try discriminate; try (vm_compute; reflexivity); cbn; repeat split; discriminate.
  - right. eexists. split; [reflexivity|]. right. left. exists true, false. split; vm_compute; reflexivity.
  - exact Logic.I.
Qed.
Print Assumptions C152_exact_partial.

Lemma below_greatest m : Z.pos m < 2 ^ 53 -> Pos.compare_cont Eq m 9007199254740991 <> Gt.
Proof.
  intros H E. assert (E' : (m ?= 9007199254740991)%positive = Gt) by exact E. clear E. apply Pos.compare_gt_iff in E'. assert (X : 2 ^ 53 = 9007199254740992) by reflexivity. rewrite X in H. clear X. lia.
Qed.
(** the greatest float, above which the running sum of a summary starts again (C44), is that *)
Theorem C44_greatest : finite f64_max /\ forall x, finite x -> fleb x f64_max = true.
Proof.
  split; [reflexivity|]. intros [s|s| |s m e] F; [reflexivity|destruct F|destruct F|]. destruct s; [reflexivity|]. apply valid_parts in F as [Hm He]. apply below_greatest in Hm.
  unfold fleb, SFleb, SFcompare, f64_max. destruct (Z.compare_spec e 971) as [->|H|H]; [|reflexivity|exfalso; lia]. destruct (Pos.compare_cont Eq m 9007199254740991); [reflexivity|reflexivity|contradiction Hm; reflexivity].
Qed.
Example C44_ex_greatest : finite fone /\ fadd f64_max fone = f64_max /\ fadd f64_max f64_max = S754_infinity false.
Proof. repeat split; vm_compute; reflexivity. Qed.
Print Assumptions C44_greatest.
