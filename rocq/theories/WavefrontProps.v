(** * Properties of the wavefront sink. *)
From Verif Require Import Base BaseFacts TelemetryModel QExample TelemetryProps BucketsModel BucketsProps FiltersModel FiltersProofs CacheModel CacheProofs CacheProps WavefrontModel WavefrontSpec WavefrontProofs.
Open Scope string_scope. Open Scope list_scope. Open Scope nat_scope.

(** ** C39 *)
Theorem C39_padding_only_inserts : forall (Q : QLib) (hkind : list string -> method -> N) (span : Z) (last_seen : list (N * Z)) (control : pad_control) (l : list telemetry) (n : nat) (out : list pad),
  span <> 0%Z -> ps_drain hkind span last_seen control n (padding l) = Some out ->
  originals out = l /\ woven (fun t x => In t l /\ t_hash hkind t = t_hash hkind x) l out.
Proof.
  intros Q hkind span last control l n out Hs E. apply drain_stream_eq in E; [|assumption]. subst out.
  pose proof (stream_woven hkind span last control l) as W. split; [eapply woven_originals; eassumption|].
  eapply woven_impl; [exact W|]. intros t ts x Hin _ HR. split; [|exact HR].
  destruct l as [|x0 r]; [contradiction|]. exact (padded_points hkind span last control r x0 [] _ Hin).
Qed.
Theorem C39_zeros_carry_the_series : forall (Q : QLib) (hkind : list string -> method -> N) (span : Z) (last_seen : list (N * Z)) (control : pad_control) (l : list telemetry) (n : nat) (out : list pad),
  span <> 0%Z -> hash_faithful hkind l -> ps_drain hkind span last_seen control n (padding l) = Some out ->
  woven (fun t x => series_key t = series_key x /\ t_kind t = t_kind x) l out.
Proof.
  intros Q hkind span last control l n out Hs Hh E. destruct (C39_padding_only_inserts _ _ _ _ _ _ _ _ Hs E) as [_ W].
  eapply woven_impl; [exact W|]. intros t ts x _ Hx [Ht HR]. apply Hh; assumption.
Qed.
(** the iterator ends *)
Theorem C39_padding_ends : forall (Q : QLib) (hkind : list string -> method -> N) (span : Z) (last_seen : list (N * Z)) (control : pad_control) (l : list telemetry),
  span <> 0%Z -> exists n out, forall m, n <= m -> ps_drain hkind span last_seen control m (padding l) = Some out.
Proof.
  intros Q hkind span last control l Hs. destruct (drain_stream hkind span last control Hs l) as [n Hn]. exists n, (padded_stream hkind span last control l). exact Hn.
Qed.

(** ** C40 *)
Lemma wants_skip `{Q : QLib} c x : wants_padding c (t_kind x) = true -> p_skip c (PTelem x) = false.
Proof. unfold wants_padding, p_skip. destruct (t_kind x); intros ->; reflexivity. Qed.
Lemma abs64_id z : (i64_min < z <= i64_max)%Z -> abs64 (wrap64 z) = Z.abs z.
Proof. unfold i64_min, i64_max. intros H. rewrite wrap64_id by lia. unfold abs64. apply wrap64_id. lia. Qed.
Lemma near_iff `{Q : QLib} span x y : (0 < span)%Z -> (i64_min < t_timestamp x - t_timestamp y <= i64_max)%Z ->
  near span x y = (Z.abs (t_timestamp x - t_timestamp y) <? 2 * span)%Z.
Proof.
  intros Hs Hd. unfold near. rewrite abs64_id by assumption. set (d := Z.abs _). assert (0 <= d)%Z by (unfold d; lia).
  rewrite Z.quot_div_nonneg by lia. pose proof (Z.div_mod d span ltac:(lia)) as Hdm. pose proof (Z.mod_pos_bound d span ltac:(lia)) as Hm.
  set (q := (d / span)%Z) in *. assert (0 <= q)%Z by (apply Z.div_pos; lia).
  destruct (Z.ltb_spec d (2 * span)); destruct (Z.eqb_spec q 0), (Z.eqb_spec q 1); cbn; try reflexivity; nia.
Qed.
Lemma sat_add1_id z : (z < i64_max)%Z -> sat_add1 z = (z + 1)%Z.
Proof. unfold sat_add1. lia. Qed.
Lemma sat_sub1_id z : (i64_min < z)%Z -> sat_sub1 z = (z - 1)%Z.
Proof. unfold sat_sub1. lia. Qed.

(** Missing: the gap after a point not newer than the series' last seen time (C40_refuted); times so
    far apart that their difference overflows. *)
Theorem C40_gaps_bracketed_partial : forall (Q : QLib) (hkind : list string -> method -> N) (span : Z) (last_seen : list (N * Z)) (control : pad_control)
    (l1 l2 : list telemetry) (x y : telemetry) (n : nat) (out : list pad),
  (0 < span)%Z ->
  t_hash hkind x = t_hash hkind y -> wants_padding control (t_kind x) = true ->
  (i64_min < t_timestamp x - t_timestamp y <= i64_max)%Z ->
  (t_timestamp x < i64_max)%Z -> (i64_min < t_timestamp y)%Z ->
  (2 * span <= Z.abs (t_timestamp x - t_timestamp y))%Z ->
  (forall ts, alookup N.eqb (t_hash hkind x) last_seen = Some ts -> (ts < t_timestamp x)%Z) ->
  ps_drain hkind span last_seen control n (padding (l1 ++ x :: y :: l2)) = Some out ->
  exists o1 o2,
    out = o1 ++ [PTelem x; PZero x (t_timestamp x + 1); PZero y (t_timestamp y - 1); PTelem y] ++ o2 /\
    originals o1 = l1 /\ originals o2 = l2.
Proof.
  intros Q hkind span last control l1 l2 x y n out Hsp He Hw Hd Hx Hy Hg Hts E. apply drain_stream_eq in E; [|lia]. subst out.
  destruct (l1 ++ x :: y :: l2) as [|x0 r] eqn:El; [destruct l1; discriminate|]. cbn [padded_stream].
  destruct (gap_inside hkind span last control l1 x0 r x y l2 [] (Logic.eq_sym El) He (wants_skip _ _ Hw) Hts) as (o1 & o2 & E & H1 & H2).
  exists o1, o2. rewrite E. unfold bridge. rewrite near_iff by assumption. destruct (Z.ltb_spec (Z.abs (t_timestamp x - t_timestamp y)) (2 * span)); [lia|].
  unfold zpost, zsub. rewrite sat_add1_id, sat_sub1_id by assumption. auto.
Qed.
(** neighbouring points of a series get no zeros between them *)
Theorem C40_no_zeros_between_neighbours : forall (Q : QLib) (hkind : list string -> method -> N) (span : Z) (last_seen : list (N * Z)) (control : pad_control)
    (l1 l2 : list telemetry) (x y : telemetry) (n : nat) (out : list pad),
  (0 < span)%Z ->
  t_hash hkind x = t_hash hkind y -> wants_padding control (t_kind x) = true ->
  (i64_min < t_timestamp x - t_timestamp y <= i64_max)%Z ->
  (Z.abs (t_timestamp x - t_timestamp y) < 2 * span)%Z ->
  (forall ts, alookup N.eqb (t_hash hkind x) last_seen = Some ts -> (ts < t_timestamp x)%Z) ->
  ps_drain hkind span last_seen control n (padding (l1 ++ x :: y :: l2)) = Some out ->
  exists o1 o2, out = o1 ++ [PTelem x; PTelem y] ++ o2 /\ originals o1 = l1 /\ originals o2 = l2.
Proof.
  intros Q hkind span last control l1 l2 x y n out Hsp He Hw Hd Hg Hts E. apply drain_stream_eq in E; [|lia]. subst out.
  destruct (l1 ++ x :: y :: l2) as [|x0 r] eqn:El; [destruct l1; discriminate|]. cbn [padded_stream].
  destruct (gap_inside hkind span last control l1 x0 r x y l2 [] (Logic.eq_sym El) He (wants_skip _ _ Hw) Hts) as (o1 & o2 & E & H1 & H2).
  exists o1, o2. rewrite E. unfold bridge. rewrite near_iff by assumption. destruct (Z.ltb_spec (Z.abs (t_timestamp x - t_timestamp y)) (2 * span)); [|lia]. auto.
Qed.
(** kinds whose padding is switched off are passed through without zeros of their own *)
Theorem C40_unpadded_kinds : forall (Q : QLib) (hkind : list string -> method -> N) (span : Z) (last_seen : list (N * Z)) (control : pad_control) (l : list telemetry) (n : nat) (out : list pad),
  span <> 0%Z -> (forall t, In t l -> wants_padding control (t_kind t) = false) ->
  ps_drain hkind span last_seen control n (padding l) = Some out -> out = map PTelem l.
Proof.
  intros Q hkind span last control l n out Hs Hk E. apply drain_stream_eq in E; [|assumption]. subst out.
  assert (K : forall t, In t l -> p_skip control (PTelem t) = true).
  { intros t Ht. specialize (Hk t Ht). unfold wants_padding, p_skip in *. destruct (t_kind t); rewrite Hk; reflexivity. }
  clear Hk. destruct l as [|x r]; [reflexivity|]. cbn [padded_stream]. generalize (@nil N) as fp. revert x K.
  induction r as [|y r IH]; intros x K fp.
  - cbn [padded]. rewrite K by (left; reflexivity). reflexivity.
  - cbn [padded]. rewrite (K x) by (left; reflexivity). rewrite IH by (intros t Ht; apply K; right; assumption).
    destruct (N.eqb _ _); reflexivity.
Qed.

(** hash of examples *)
Definition xhk (l : list string) (k : method) : N :=
  (fold_left (fun a s => a * 10 + N.of_nat (String.length s)) l 0 * 10 + match k with MSet => 1 | MSum => 2 | MSummarize => 3 | MHistogram => 4 end)%N.
Definition xp (n : string) (ts : Z) : telemetry := pt n (VSet fone) false (Some []) ts.
Definition xctl := mkPC true true true true.
(** one series; the first point arrives late: it is at the second of the point seen last *)
Theorem C40_refuted : exists (hkind : list string -> method -> N) (span : Z) (last_seen : list (N * Z)) (control : pad_control) (x y : telemetry) (n : nat),
  (0 < span)%Z /\ series_key x = series_key y /\ t_kind x = t_kind y /\ wants_padding control (t_kind x) = true /\
  (t_timestamp x < t_timestamp y)%Z /\ (2 * span <= t_timestamp y - t_timestamp x)%Z /\
  ps_drain hkind span last_seen control n (padding [x; y]) = Some [PTelem x; PZero y 11; PZero y 99; PTelem y] /\
  ps_drain hkind span [] control n (padding [x; y]) = Some [PTelem x; PZero x 6; PZero y 99; PTelem y].
Proof.
  exists xhk, 1%Z, [(xhk (series_key (xp "a" 5)) MSet, 10%Z)], xctl, (xp "a" 5), (xp "a" 100), 9. repeat split; try reflexivity; cbn; try lia.
Qed.

(** ** C41 *)
(** Missing: a series with a single point in the flush followed by another series (C41_refuted) *)
Theorem C41_gap_since_last_flush_partial : forall (Q : QLib) (hkind : list string -> method -> N) (span : Z) (last_seen : list (N * Z)) (control : pad_control)
    (l1 l2 : list telemetry) (x : telemetry) (ts : Z) (n : nat) (out : list pad),
  (0 < span)%Z -> wants_padding control (t_kind x) = true ->
  (forall t, In t l1 -> t_hash hkind t <> t_hash hkind x) ->
  match l2 with [] => True | y :: _ => t_hash hkind y = t_hash hkind x end ->
  alookup N.eqb (t_hash hkind x) last_seen = Some ts ->
  (2 * span <= t_timestamp x - ts <= i64_max)%Z -> (i64_min <= ts)%Z -> (t_timestamp x <= i64_max)%Z ->
  ps_drain hkind span last_seen control n (padding (l1 ++ x :: l2)) = Some out ->
  exists o1 o2, out = o1 ++ [PZero x (ts + 1); PZero x (t_timestamp x - 1); PTelem x] ++ o2 /\ originals o1 = l1 /\ originals o2 = l2.
Proof.
  intros Q hkind span last control l1 l2 x ts n out Hsp Hw Hl Hy Hts Hg H1 H2 E. apply drain_stream_eq in E; [|lia]. subst out.
  destruct (l1 ++ x :: l2) as [|x0 r] eqn:El; [destruct l1; discriminate|]. cbn [padded_stream].
  destruct (gap_before hkind span last control l1 x0 r x l2 [] ts (Logic.eq_sym El)) as (o1 & o2 & E & E1 & E2); auto.
  - apply wants_skip; assumption.
  - lia.
  - unfold i64_max, i64_min in *. rewrite wrap64_id by lia. apply Z.ltb_lt. rewrite Z.quot_div_nonneg by lia.
    apply (Z.lt_le_trans _ 2); [lia|]. apply Z.div_le_lower_bound; lia.
  - exists o1, o2. rewrite E. unfold zsub. rewrite sat_add1_id, sat_sub1_id by (unfold i64_max, i64_min in *; lia). auto.
Qed.
(** two series, one point each: the gap of the first is not padded, the gap of the second is *)
Theorem C41_refuted : exists (hkind : list string -> method -> N) (span : Z) (last_seen : list (N * Z)) (control : pad_control) (x y : telemetry) (n : nat),
  (0 < span)%Z /\ wants_padding control (t_kind x) = true /\ t_hash hkind x <> t_hash hkind y /\
  alookup N.eqb (t_hash hkind x) last_seen = Some 10%Z /\ alookup N.eqb (t_hash hkind y) last_seen = Some 10%Z /\
  (2 * span <= t_timestamp x - 10)%Z /\
  ps_drain hkind span last_seen control n (padding [x; y]) = Some [PTelem x; PZero y 11; PZero y 99; PTelem y].
Proof.
  exists xhk, 1%Z, [(xhk (series_key (xp "a" 5)) MSet, 10%Z); (xhk (series_key (xp "bb" 5)) MSet, 10%Z)], xctl, (xp "a" 100), (xp "bb" 100), 9.
  repeat split; try reflexivity; cbn; try lia; try discriminate.
Qed.
(** a series not seen before, or seen within two spans, gets no zeros in front of its first point *)
Theorem C41_no_zeros_without_gap : forall (Q : QLib) (hkind : list string -> method -> N) (span : Z) (control : pad_control) (l : list telemetry) (n : nat) (out : list pad),
  (0 < span)%Z -> (forall a b, In a l -> In b l -> t_hash hkind a = t_hash hkind b -> (Z.abs (t_timestamp a - t_timestamp b) < 2 * span)%Z /\ (i64_min < t_timestamp a - t_timestamp b <= i64_max)%Z) ->
  ps_drain hkind span [] control n (padding l) = Some out -> out = map PTelem l.
Proof.
  intros Q hkind span control l n out Hs Hk E. apply drain_stream_eq in E; [|lia]. subst out.
  assert (St : forall fp x, status hkind span [] fp x = Unseen) by (intros; unfold status; cbn; destruct (existsb _ _); reflexivity).
  destruct l as [|x r]; [reflexivity|]. cbn [padded_stream]. generalize (@nil N) as fp. revert x Hk.
  induction r as [|y r IH]; intros x Hk fp.
  - cbn [padded]. rewrite St. destruct (p_skip _ _); reflexivity.
  - cbn [padded]. rewrite St. cbn [lead app fp'].
    assert (IH' : forall fp, padded hkind span [] control fp y r = map PTelem (y :: r)) by (intros; apply IH; intros a b Ha Hb; apply Hk; right; assumption).
    rewrite !IH'. destruct (N.eqb_spec (t_hash hkind x) (t_hash hkind y)) as [He|]; [|reflexivity]. destruct (p_skip _ _); [reflexivity|].
    destruct (Hk x y (or_introl eq_refl) (or_intror (or_introl eq_refl)) He) as [H1 H2].
    unfold bridge. rewrite near_iff by assumption. apply Z.ltb_lt in H1. rewrite H1. reflexivity.
Qed.

(** a padded stream of two series *)
Example C41_example :
  ps_drain xhk 2 [(xhk (series_key (xp "a" 0)) MSet, 10%Z)] xctl 20 (padding [xp "a" 20; xp "a" 21; xp "a" 30; xp "bb" 3; xp "bb" 9]) =
  Some [PZero (xp "a" 20) 11; PZero (xp "a" 20) 19; PTelem (xp "a" 20); PTelem (xp "a" 21); PZero (xp "a" 21) 22; PZero (xp "a" 30) 29; PTelem (xp "a" 30);
        PTelem (xp "bb" 3); PZero (xp "bb" 3) 4; PZero (xp "bb" 9) 8; PTelem (xp "bb" 9)].
Proof. reflexivity. Qed.
Example C39_zero_span_panics : ps_drain xhk 0 [] xctl 20 (padding [xp "a" 20; xp "a" 21]) = None.
Proof. reflexivity. Qed.
Example C39_example_faithful : hash_faithful xhk [xp "a" 20; xp "bb" 3].
Proof. intros a b [<-|[<-|[]]] [<-|[<-|[]]]; cbn; intros H; try discriminate H; split; reflexivity. Qed.

(** ** C42, wavefront part *)
Theorem C42_wavefront_flush : forall (Q : QLib) (hkind : list string -> method -> N) (hfun : list string -> N) (show_f : f64 -> string) (show_n : N -> string) (show_z : Z -> string)
    (c : wcfg) (ops : list wop) (stream : bool) (w : wave) (logs : list (list (string * bool * nat))),
  w_run hkind hfun show_f show_n show_z c ops (wave_init c stream) = Some (w, logs) ->
  w_stats w = "" /\ Forall (fun log => exists text, flushed text log) logs.
Proof.
  intros Q hkind hfun show_f show_n show_z c ops stream w logs.
  assert (G : forall ops w0 w logs, w_stats w0 = "" -> w_run hkind hfun show_f show_n show_z c ops w0 = Some (w, logs) ->
     w_stats w = "" /\ Forall (fun log => exists text, flushed text log) logs).
  { clear. induction ops as [|o ops IH]; intros w0 w logs H0 E; cbn [w_run] in E.
    - injection E as <- <-. auto.
    - destruct o as [now t|fuel now now' ans].
      + destruct (w_deliver hfun c now t w0) as [w1|] eqn:E1; [|discriminate]. apply (IH w1); [|assumption].
        unfold w_deliver in E1. destruct (b_add hfun (w_aggrs w0) t) as [b|]; destruct (wc_age c) as [age|]; try destruct (_ <=? _)%Z; try discriminate; injection E1 as <-; exact H0.
      + destruct (w_flush _ _ _ _ _ _ _ _ _ _ _) as [[w1 l]|] eqn:E1; [|discriminate]. destruct (w_run _ _ _ _ _ c ops w1) as [[w2 ls]|] eqn:E2; [|discriminate].
        injection E as <- <-. unfold w_flush in E1. destruct (format_stats _ _ _ _ _ _ _ _ _) as [wf|]; [|discriminate].
        apply flush_loop_spec in E1 as (F1 & F2 & _ & _). destruct (IH _ _ _ F2 E2) as [I1 I2]. split; [assumption|]. constructor; [exists (w_stats wf); assumption|assumption]. }
  apply G. reflexivity.
Qed.
(** when the network eventually accepts a connection and the write on it, the flush ends *)
Theorem C42_wavefront_flush_ends : forall (Q : QLib) (hkind : list string -> method -> N) (hfun : list string -> N) (show_f : f64 -> string) (show_n : N -> string) (show_z : Z -> string)
    (c : wcfg) (fuel : nat) (now now' : Z) (ans : list wanswer) (n : nat) (w w1 : wave),
  format_stats hkind hfun show_f show_n show_z c fuel now w = Some w1 ->
  w_flush hkind hfun show_f show_n show_z c fuel now now' (ans ++ [AConnect true; AWrite true n]) w <> None.
Proof. intros. unfold w_flush. rewrite H. apply flush_loop_ends. Qed.

(** a write is attempted only on a connection no write has failed on: the one there was, or one
    made since *)
Theorem C42_wavefront_reconnects : forall (Q : QLib) (hkind : list string -> method -> N) (hfun : list string -> N) (show_f : f64 -> string) (show_n : N -> string) (show_z : Z -> string)
    (c : wcfg) (fuel : nat) (now now' : Z) (ans : list wanswer) (w w' : wave) (log : list (string * bool * nat)),
  w_flush hkind hfun show_f show_n show_z c fuel now now' ans w = Some (w', log) ->
  List.length log <= (if w_stream w then 1 else 0) + connects ans.
Proof.
  intros Q hkind hfun show_f show_n show_z c fuel now now' ans w w' log E. unfold w_flush in E. destruct (format_stats _ _ _ _ _ _ _ _ _) as [wf|] eqn:Ef; [|discriminate].
  assert (Es : w_stream wf = w_stream w).
  { unfold format_stats in Ef. destruct (ps_drain _ _ _ _ _ _) as [pads|]; [|discriminate]. destruct (fmt_pads _ _ _ _ _) as [ps|]; [|discriminate].
    destruct (emit _ _ _ _ _) as [[c' text]|]; [|discriminate]. injection Ef as <-. reflexivity. }
  rewrite <- Es. apply flush_loop_connects in E; assumption.
Qed.
(** the valve is closed exactly while more than ten thousand points are held *)
Theorem C42_wavefront_valve : forall (Q : QLib) (hkind : list string -> method -> N) (hfun : list string -> N) (show_f : f64 -> string) (show_n : N -> string) (show_z : Z -> string)
    (c : wcfg) (ops : list wop) (stream : bool) (w : wave) (logs : list (list (string * bool * nat))),
  wc_span c <> 0%Z -> w_run hkind hfun show_f show_n show_z c ops (wave_init c stream) = Some (w, logs) ->
  (w_valve_open w = false <-> (10000 < N.of_nat (List.length (b_iter (w_aggrs w))))%N).
Proof.
  intros Q hkind hfun show_f show_n show_z c ops stream w logs Hs E. apply w_run_b_run in E as (os & E).
  destruct (C02_count_is_number_of_points Q hfun (wc_span c) os Hs) as (b & Eb & Hc & _).
  change (w_aggrs (wave_init c stream)) with (b_new (wc_span c)) in E. rewrite Eb in E. injection E as E. rewrite <- E.
  unfold w_valve_open. rewrite Bool.negb_false_iff, <- E, Hc, N.ltb_lt. change (2 ^ 64 - 1)%N with 18446744073709551615%N. lia.
Qed.

(** ** C65 *)
Theorem C65_flush_writes_every_point : forall (Q : QLib) (hkind : list string -> method -> N) (hfun : list string -> N) (show_f : f64 -> string) (show_n : N -> string) (show_z : Z -> string)
    (c : wcfg) (ops : list wop) (stream : bool) (w w' : wave) (logs : list (list (string * bool * nat))) (fuel : nat) (now now' : Z) (ans : list wanswer) (log : list (string * bool * nat)),
  (forall a b, feqb a b = true -> show_f a = show_f b) -> wc_span c <> 0%Z ->
  w_run hkind hfun show_f show_n show_z c ops (wave_init c stream) = Some (w, logs) ->
  w_flush hkind hfun show_f show_n show_z c fuel now now' ans w = Some (w', log) ->
  exists pads points,
    originals pads = b_iter (w_aggrs w) /\ Forall2 (shown now) pads points /\
    flushed (texts (map (point_text show_f show_n show_z (wc_tags c) (wc_percentiles c)) points)) log.
Proof.
  intros Q hkind hfun show_f show_n show_z c ops stream w w' logs fuel now now' ans log Hsame Hspan Hrun Hf.
  apply C42_wavefront_flush in Hrun as [H0 _]. unfold w_flush in Hf. destruct (format_stats _ _ _ _ _ _ _ _ _) as [wf|] eqn:Ef; [|discriminate].
  destruct (format_text _ _ _ _ Hsame _ _ _ _ _ _ Ef) as (pads & points & Hd & Hs & Ht & _). exists pads, points. split; [|split; [assumption|]].
  - apply (C39_padding_only_inserts _ _ _ _ _ _ _ _ Hspan Hd).
  - apply flush_loop_spec in Hf as (F1 & _). rewrite Ht, H0 in F1. exact F1.
Qed.

(** ** C64 *)
(** Missing: summaries and histograms (C64_refuted) *)
Theorem C64_zero_points_partial : forall (Q : QLib) (now ts : Z) (t : telemetry) (percentiles : list (string * f64)) (show_f : f64 -> string),
  t_kind t = MSet \/ t_kind t = MSum ->
  exists z, zero_point now t ts = Some z /\ t_name z = t_name t /\ t_tags z = t_tags t /\ t_kind z = t_kind t /\ t_timestamp z = ts /\
    point_lines show_f percentiles z = [(t_name t, WF fzero)].
Proof.
  intros Q now ts t percentiles show_f Hk. unfold zero_point, harden, thaw, b_value, t_kind in *.
  destruct (t_value t) as [x|x|h|q s] eqn:Ev; cbn in *; try (destruct Hk; discriminate); eexists; repeat split; cbn; reflexivity.
Qed.
(** every padding zero of a summary reports a count of one, every padding zero of a histogram has one sample in its bins *)
Theorem C64_refuted : forall (Q : QLib) (now ts : Z) (t z : telemetry) (percentiles : list (string * f64)) (show_f : f64 -> string),
  zero_point now t ts = Some z ->
  (t_kind t = MSummarize -> In ((t_name t ++ ".count")%string, WN 1) (point_lines show_f percentiles z)) /\
  (t_kind t = MHistogram -> exists bins, t_bins z = Some bins /\ sumN (map snd bins) = 1%N).
Proof.
  intros Q now ts t z percentiles show_f E. unfold zero_point, harden, thaw, b_value, t_kind, fofZ in *. cbn -[fratio fleb binary_normalize] in E.
  split; intros Hk; destruct (t_value t) as [x|x|h|q s]; try discriminate Hk; cbn -[fratio fleb binary_normalize] in E.
  - injection E as <-. unfold point_lines. cbn -[fratio]. apply in_or_app. right. left. unfold t_count. cbn -[fratio].
    rewrite c_insert_count, c_new_count. reflexivity.
  - destruct (h_new _) as [h1|] eqn:Eh; [|discriminate]. injection E as <-. unfold t_bins. cbn. eexists. split; [reflexivity|].
    rewrite h_bins_total, h_insert_count, (h_new_count _ _ Eh). reflexivity.
Qed.
Definition xsum : telemetry := pt "s" (VQuant [fofZ 7] (fofZ 7)) false (Some []) 5.
Example C64_refuted_example : option_map (point_lines (fun _ => "x") [("max", fone)]) (zero_point 0 xsum 8) =
  Some [("s.max", WF fzero); ("s.count", WN 1); ("s.mean", WF fzero)].
Proof. reflexivity. Qed.

(** ** C66 *)
(** Missing: differences outside of the signed 64 bit range (C66_refuted); thresholds from 2^63 on are read as negative *)
Theorem C66_age_threshold_partial : forall (Q : QLib) (hfun : list string -> N) (c : wcfg) (now : Z) (t : telemetry) (w : wave) (age : N),
  wc_age c = Some age -> (Z.of_N age <= i64_max)%Z -> (i64_min < t_timestamp t - now <= i64_max)%Z ->
  w_deliver hfun c now t w =
  if (Z.abs (t_timestamp t - now) <=? Z.of_N age)%Z
  then option_map (fun b => mkWave b (w_stats w) (w_last w) (w_attempts w) (w_stream w)) (b_add hfun (w_aggrs w) t)
  else Some w.
Proof.
  intros Q hfun c now t w age Ha Hm Hd. unfold w_deliver. rewrite Ha, abs64_id by assumption. unfold as_i64, i64_max, i64_min in *. rewrite wrap64_id by lia.
  destruct (b_add hfun (w_aggrs w) t); reflexivity.
Qed.
Theorem C66_no_threshold : forall (Q : QLib) (hfun : list string -> N) (c : wcfg) (now : Z) (t : telemetry) (w : wave),
  wc_age c = None ->
  w_deliver hfun c now t w = option_map (fun b => mkWave b (w_stats w) (w_last w) (w_attempts w) (w_stream w)) (b_add hfun (w_aggrs w) t).
Proof. intros Q hfun c now t w Ha. unfold w_deliver. rewrite Ha. destruct (b_add hfun (w_aggrs w) t); reflexivity. Qed.
(** a point 2^63 seconds old passes a threshold of ten minutes *)
Definition xcfg (age : option N) := mkWcfg 1 [("max", fone)] xctl [("host", "h")] age.
Theorem C66_refuted : exists (hfun : list string -> N) (now : Z) (t : telemetry),
  (0 <= now)%Z /\ i64_ok (t_timestamp t) /\ (600 < Z.abs (t_timestamp t - now))%Z /\
  option_map (fun w => b_count (w_aggrs w)) (w_deliver hfun (xcfg (Some 600%N)) now t (wave_init (xcfg (Some 600%N)) true)) = Some 1%N.
Proof.
  exists (fun _ => 0%N), 100%Z, (xp "a" (i64_min + 100)). unfold i64_ok, i64_min, i64_max. repeat split; cbn; try lia; discriminate.
Qed.
Example C66_example : map (fun now => option_map (fun w => b_count (w_aggrs w)) (w_deliver (fun _ => 0%N) (xcfg (Some 600%N)) now (xp "a" 1000) (wave_init (xcfg (Some 600%N)) true)))
  [400; 399; 1600; 1601]%Z = [Some 1; Some 0; Some 1; Some 0]%N.
Proof. reflexivity. Qed.

(** ** C67 *)
(** the record is the time of the series' last point of the flush; missing: that it is not lowered (C67_refuted) *)
Theorem C67_last_seen_partial : forall (Q : QLib) (hkind : list string -> method -> N) (hfun : list string -> N) (show_f : f64 -> string) (show_n : N -> string) (show_z : Z -> string)
    (c : wcfg) (fuel : nat) (now now' : Z) (ans : list wanswer) (w w' : wave) (log : list (string * bool * nat)) (h : N),
  wc_span c <> 0%Z -> w_flush hkind hfun show_f show_n show_z c fuel now now' ans w = Some (w', log) ->
  alookup N.eqb h (w_last w') =
  match find (fun t => N.eqb (t_hash hkind t) h) (rev (b_iter (w_aggrs w))) with
  | Some x => Some (t_timestamp x)
  | None => alookup N.eqb h (w_last w)
  end.
Proof.
  intros Q hkind hfun show_f show_n show_z c fuel now now' ans w w' log h Hs Hf. unfold w_flush in Hf.
  destruct (format_stats _ _ _ _ _ _ _ _ _) as [wf|] eqn:Ef; [|discriminate]. apply flush_loop_spec in Hf as (_ & _ & -> & _).
  unfold format_stats in Ef. destruct (ps_drain _ _ _ _ _ _) as [pads|] eqn:Ed; [|discriminate]. destruct (fmt_pads _ _ _ _ _); [|discriminate]. destruct (emit _ _ _ _ _) as [[? ?]|]; [|discriminate].
  injection Ef as <-. cbn [w_last]. apply drain_stream_eq in Ed; [|assumption]. subst pads. apply seen_woven. apply stream_woven.
Qed.
Definition xsf (x : f64) : string := if feqb x fzero then "0" else "1".
Definition xsn (n : N) : string := match n with 0 => "0" | 1 => "1" | _ => "n" end%N.
Definition xsz (z : Z) : string := match z with 5 => "5" | 100 => "100" | 6 => "6" | 99 => "99" | _ => "z" end%Z.
Definition xrun ops := w_run xhk (fun l => xhk l MSet) xsf xsn xsz (xcfg None) ops (wave_init (xcfg None) true).
Definition xlast (r : option (wave * list (list (string * bool * nat)))) := option_map (fun r => w_last (fst r)) r.
(** a late point lowers the record *)
Theorem C67_refuted : exists (t1 t2 : telemetry) (h : N),
  series_key t1 = series_key t2 /\ (t_timestamp t2 < t_timestamp t1)%Z /\
  xlast (xrun [WDeliver 0 t1; WFlush 9 0 0 [AWrite true 0]]) = Some [(h, t_timestamp t1)] /\
  xlast (xrun [WDeliver 0 t1; WFlush 9 0 0 [AWrite true 0]; WDeliver 0 t2; WFlush 9 0 0 [AWrite true 0]]) = Some [(h, t_timestamp t2)].
Proof. exists (xp "a" 100), (xp "a" 5), (xhk (series_key (xp "a" 5)) MSet). repeat split; reflexivity. Qed.
(** a refused write, a refused connection, then success *)
Example C65_example : option_map snd (xrun [WDeliver 0 (xp "a" 5); WDeliver 0 (xp "a" 100); WFlush 9 0 0 [AWrite false 3; AConnect false; AConnect true; AWrite true 0]]) =
  let text := ("a 1 5 host=h" ++ nl ++ "a 0 6 host=h" ++ nl ++ "a 0 99 host=h" ++ nl ++ "a 1 100 host=h" ++ nl)%string in
  Some [[(text, false, 3); (text, true, 55)]].
Proof. reflexivity. Qed.
Example C42_example : connects [AWrite false 3; AConnect false; AConnect true; AWrite true 0] = 1 /\ wc_span (xcfg None) <> 0%Z /\
  option_map (fun r => w_valve_open (fst r)) (xrun [WDeliver 0 (xp "a" 5); WDeliver 0 (xp "a" 100)]) = Some true.
Proof. split; [reflexivity|]. split; [discriminate|reflexivity]. Qed.
Example C65_example_show : forall a b, feqb a b = true -> xsf a = xsf b.
Proof.
  intros a b H. unfold xsf. assert (E : forall z, feqb a z = feqb b z); [|rewrite E; reflexivity].
  intros z. unfold feqb, SFeqb in *. change SFcompare with fcmp in *.
  destruct (fcmp a b) as [[]|] eqn:Ec; try discriminate H. rewrite (po_eq _ fcmp_order a b z Ec). reflexivity.
Qed.

Print Assumptions C39_padding_only_inserts.
Print Assumptions C39_zeros_carry_the_series.
Print Assumptions C39_padding_ends.
Print Assumptions C40_gaps_bracketed_partial.
Print Assumptions C40_no_zeros_between_neighbours.
Print Assumptions C40_unpadded_kinds.
Print Assumptions C40_refuted.
Print Assumptions C41_gap_since_last_flush_partial.
Print Assumptions C41_refuted.
Print Assumptions C41_no_zeros_without_gap.
Print Assumptions C42_wavefront_flush.
Print Assumptions C42_wavefront_flush_ends.
Print Assumptions C42_wavefront_reconnects.
Print Assumptions C42_wavefront_valve.
Print Assumptions C64_zero_points_partial.
Print Assumptions C64_refuted.
Print Assumptions C65_flush_writes_every_point.
Print Assumptions C66_age_threshold_partial.
Print Assumptions C66_no_threshold.
Print Assumptions C66_refuted.
Print Assumptions C67_last_seen_partial.
Print Assumptions C67_refuted.
