(** * Facts about conversions between floats, integers and bits. *)
From Verif Require Import Base.
Open Scope Z_scope.

(** a float cast to i64: truncated towards zero, saturating, NaN is 0 ("as i64") *)
Definition ftrunc (x : f64) : Z :=
  match x with
  | S754_zero _ | S754_nan => 0
  | S754_infinity s => if s then -9223372036854775808 else 9223372036854775807
  | S754_finite s m e =>
      let a := if 0 <=? e then Z.pos m * 2 ^ e else Z.pos m / 2 ^ (- e) in
      if s then Z.max (- a) (-9223372036854775808) else Z.min a 9223372036854775807
  end.

(** ** digits *)
Lemma digits_bounds p : 2 ^ (Z.pos (digits2_pos p) - 1) <= Z.pos p < 2 ^ Z.pos (digits2_pos p).
Proof.
  induction p as [p IH|p IH|]; cbn [digits2_pos].
  - rewrite Pos2Z.inj_succ. replace (Z.succ (Z.pos (digits2_pos p)) - 1) with (Z.succ (Z.pos (digits2_pos p) - 1)) by lia.
    rewrite !Z.pow_succ_r by lia. lia.
  - rewrite Pos2Z.inj_succ. replace (Z.succ (Z.pos (digits2_pos p)) - 1) with (Z.succ (Z.pos (digits2_pos p) - 1)) by lia.
    rewrite !Z.pow_succ_r by lia. lia.
  - cbn. lia.
Qed.
Lemma digits_unique p d : 0 < d -> 2 ^ (d - 1) <= Z.pos p < 2 ^ d -> Z.pos (digits2_pos p) = d.
Proof.
  intros Hd H. pose proof (digits_bounds p) as B. set (d' := Z.pos (digits2_pos p)) in *. assert (0 < d') by (subst d'; lia).
  destruct (Z.lt_trichotomy d' d) as [L|[E|L]]; [|assumption|]; exfalso.
  - assert (2 ^ d' <= 2 ^ (d - 1)) by (apply Z.pow_le_mono_r; lia). lia.
  - assert (2 ^ d <= 2 ^ (d' - 1)) by (apply Z.pow_le_mono_r; lia). lia.
Qed.

(** ** shifting to the right *)
Lemma iter_S {A} (f : A -> A) n x : Nat.iter (S n) f x = f (Nat.iter n f x).
Proof. reflexivity. Qed.
Lemma iter_add {A} (f : A -> A) a b x : Nat.iter (a + b) f x = Nat.iter a f (Nat.iter b f x).
Proof. induction a as [|a IH]; [reflexivity|]. cbn [Nat.add]. rewrite !iter_S, IH. reflexivity. Qed.
Lemma iter_pos_nat {A} (f : A -> A) p : forall x, iter_pos f p x = Nat.iter (Pos.to_nat p) f x.
Proof.
  induction p as [p IH|p IH|]; intros x; cbn [iter_pos].
  - rewrite !IH, Pos2Nat.inj_xI. replace (S (2 * Pos.to_nat p))%nat with (Pos.to_nat p + (Pos.to_nat p + 1))%nat by lia. rewrite !iter_add. reflexivity.
  - rewrite !IH, <- iter_add, Pos2Nat.inj_xO. f_equal. lia.
  - reflexivity.
Qed.
Lemma shr_1_spec mrs : 0 <= shr_m mrs -> shr_m (shr_1 mrs) = shr_m mrs / 2 /\ shr_r (shr_1 mrs) = Z.odd (shr_m mrs).
Proof.
  destruct mrs as [[|[p|p|]|p] r s]; cbn [shr_m shr_1 shr_r]; intros H; try lia.
  - split; reflexivity.
  - split; [|reflexivity]. rewrite Pos2Z.inj_xI. apply (Z.div_unique _ _ _ 1); lia.
  - split; [|reflexivity]. rewrite Pos2Z.inj_xO. apply (Z.div_unique _ _ _ 0); lia.
  - split; reflexivity.
Qed.
Lemma shr_iter n mrs : 0 <= shr_m mrs -> shr_m (Nat.iter n shr_1 mrs) = shr_m mrs / 2 ^ Z.of_nat n.
Proof.
  intros H. induction n as [|n IH]; [cbn; rewrite Z.div_1_r; reflexivity|]. rewrite iter_S.
  destruct (shr_1_spec (Nat.iter n shr_1 mrs)) as [E _]; [rewrite IH; apply Z.div_pos; [assumption|apply Z.pow_pos_nonneg; lia]|].
  rewrite E, IH, Z.div_div by (try apply Z.pow_pos_nonneg; lia). f_equal. rewrite Nat2Z.inj_succ, Z.pow_succ_r by lia. ring.
Qed.
Lemma shr_iter_r n mrs : 0 <= shr_m mrs -> shr_r (Nat.iter (S n) shr_1 mrs) = Z.odd (shr_m mrs / 2 ^ Z.of_nat n).
Proof.
  intros H. rewrite iter_S. destruct (shr_1_spec (Nat.iter n shr_1 mrs)) as [_ E]; [rewrite shr_iter by assumption; apply Z.div_pos; [assumption|apply Z.pow_pos_nonneg; lia]|].
  rewrite E, shr_iter by assumption. reflexivity.
Qed.
Lemma round_low mrs : shr_r mrs = false -> round_nearest_even (shr_m mrs) (loc_of_shr_record mrs) = shr_m mrs.
Proof. destruct mrs as [m [] []]; cbn; intros; try discriminate; reflexivity. Qed.

(** a product that is a float [t * 2^e] and less than half a unit more is rounded to it *)
Lemma round_down sx (m t : positive) ex n : 0 < n -> 2 ^ 52 <= Z.pos t < 2 ^ 53 -> Z.pos t * 2 ^ n <= Z.pos m < Z.pos t * 2 ^ n + 2 ^ (n - 1) ->
  -1074 <= ex + n <= 971 -> binary_round_aux fprec femax sx (Z.pos m) ex loc_Exact = S754_finite sx t (ex + n).
Proof.
  intros Hn Ht Hm He. assert (P1 : 0 < 2 ^ (n - 1)) by (apply Z.pow_pos_nonneg; lia). assert (P2 : 2 ^ n = 2 * 2 ^ (n - 1)) by (rewrite <- Z.pow_succ_r by lia; f_equal; lia).
  assert (Dt : Z.pos (digits2_pos t) = 53) by (apply digits_unique; lia).
  assert (Dm : Z.pos (digits2_pos m) = 53 + n).
  { apply digits_unique; [lia|]. replace (53 + n - 1) with (52 + n) by lia. rewrite !Z.pow_add_r by lia. nia. }
  unfold binary_round_aux, shr_fexp. cbn [Zdigits2 shr_record_of_loc]. unfold fexp, emin, fprec, femax. rewrite Dm.
  replace (Z.max (53 + n + ex - 53) (3 - 1024 - 53) - ex) with n by lia.
  destruct n as [|pn|]; try lia. cbn [shr]. rewrite iter_pos_nat. set (mrs := Nat.iter _ _ _).
  assert (Em : shr_m mrs = Z.pos t).
  { subst mrs. rewrite shr_iter by (cbn; lia). cbn [shr_m]. rewrite positive_nat_Z. symmetry. apply (Z.div_unique _ _ _ (Z.pos m - Z.pos t * 2 ^ Z.pos pn)); lia. }
  assert (Er : shr_r mrs = false).
  { subst mrs. destruct (Pos2Nat.is_succ pn) as (k & Ek). rewrite Ek. rewrite shr_iter_r by (cbn; lia). cbn [shr_m].
    assert (Ek' : Z.of_nat k = Z.pos pn - 1) by lia. rewrite Ek'.
    replace (Z.pos m / 2 ^ (Z.pos pn - 1)) with (2 * Z.pos t).
    - rewrite Z.odd_mul. reflexivity.
    - apply (Z.div_unique _ _ _ (Z.pos m - Z.pos t * 2 ^ Z.pos pn)); lia. }
  rewrite round_low by assumption. rewrite Em. cbn [Zdigits2 shr_record_of_loc]. rewrite Dt.
  replace (Z.max (53 + (ex + Z.pos pn) - 53) (3 - 1024 - 53) - (ex + Z.pos pn)) with 0 by lia. cbn [shr shr_m].
  destruct (Z.leb_spec (ex + Z.pos pn) (1024 - 53)); [reflexivity|lia].
Qed.
(** an integer of at most 53 bits is exact *)
Lemma fofZ_small (k : positive) : Z.pos k < 2 ^ 53 -> exists m, fofZ (Z.pos k) = S754_finite false m (Z.pos (digits2_pos k) - 53) /\ Z.pos m = Z.pos k * 2 ^ (53 - Z.pos (digits2_pos k)).
Proof.
  intros Hk. pose proof (digits_bounds k) as B. set (d := Z.pos (digits2_pos k)) in *.
  assert (Hd : 0 < d <= 53). { split; [subst d; lia|]. destruct (Z_le_gt_dec d 53); [assumption|]. assert (2 ^ 53 <= 2 ^ (d - 1)) by (apply Z.pow_le_mono_r; lia). lia. }
  unfold fofZ, binary_normalize, binary_round. fold d. unfold fexp, emin, fprec, femax, shl_align. rewrite Z.add_0_r, Z.sub_0_r.
  replace (Z.max (d - 53) (3 - 1024 - 53)) with (d - 53) by lia.
  assert (Fin : forall m, Z.pos m = Z.pos k * 2 ^ (53 - d) -> binary_round_aux 53 1024 false (Z.pos m) (d - 53) loc_Exact = S754_finite false m (d - 53)).
  { intros m Em. assert (Dm : Z.pos (digits2_pos m) = 53).
    { apply digits_unique; [lia|]. rewrite Em. replace (53 - 1) with (d - 1 + (53 - d)) by lia. replace (2 ^ 53) with (2 ^ (d + (53 - d))) by (f_equal; lia). rewrite !Z.pow_add_r by lia.
      assert (0 < 2 ^ (53 - d)) by (apply Z.pow_pos_nonneg; lia). nia. }
    unfold binary_round_aux, shr_fexp. cbn [Zdigits2 shr_record_of_loc]. unfold fexp, emin. rewrite Dm.
    replace (Z.max (53 + (d - 53) - 53) (3 - 1024 - 53) - (d - 53)) with 0 by lia. cbn [shr shr_m loc_of_shr_record round_nearest_even Zdigits2 shr_record_of_loc]. rewrite Dm.
    replace (Z.max (53 + (d - 53) - 53) (3 - 1024 - 53) - (d - 53)) with 0 by lia. cbn [shr shr_m]. destruct (Z.leb_spec (d - 53) (1024 - 53)); [reflexivity|lia]. }
  destruct (d - 53) as [|p|p] eqn:Ed; try lia.
  - exists k. split; [apply Fin|]; replace (53 - d) with 0 by lia; cbn; lia.
  - assert (Es : Z.pos (shift_pos p k) = Z.pos k * 2 ^ (53 - d)).
    { unfold shift_pos. replace (53 - d) with (Z.pos p) by lia. clear. revert k. induction p as [|p IH] using Pos.peano_ind; intros k.
      - cbn. lia.
      - rewrite Pos.iter_succ, Pos2Z.inj_succ, Z.pow_succ_r by lia. rewrite Pos2Z.inj_xO, IH. ring. }
    exists (shift_pos p k). split; [apply Fin; assumption|assumption].
Qed.
Lemma milli : fratio 1 1000 = S754_finite false 4611686018427388 (-62).
Proof. reflexivity. Qed.
Lemma milli_round (s : bool) (k : positive) : Z.pos k <= 2 ^ 43 ->
  ftrunc (fmul (fofZ (if s then - (Z.pos k * 1000) else Z.pos k * 1000)) (fratio 1 1000)) = if s then - Z.pos k else Z.pos k.
Proof.
  intros Hk. assert (Hk' : Z.pos (k * 1000) < 2 ^ 53) by (rewrite Pos2Z.inj_mul; lia).
  destruct (fofZ_small (k * 1000) Hk') as (m & Ef & Em). set (d := Z.pos (digits2_pos (k * 1000))) in *.
  assert (Efs : fofZ (if s then - (Z.pos k * 1000) else Z.pos k * 1000) = S754_finite s m (d - 53)).
  { destruct s; [|rewrite <- Pos2Z.inj_mul; exact Ef]. change (- (Z.pos k * 1000)) with (Z.neg (k * 1000)). unfold fofZ, binary_normalize in *. unfold binary_round in *.
    destruct (shl_align _ _ _) as [mz ez]. unfold binary_round_aux in *. destruct (shr_fexp _ _ (Z.pos mz) _ _) as [mrs e]. destruct (shr_fexp _ _ _ e _) as [mrs' e'].
    destruct (shr_m mrs'); try discriminate. destruct (Z.leb _ _); [|discriminate]. injection Ef as -> ->. reflexivity. }
  rewrite Efs, milli. unfold fmul, SFmul. rewrite xorb_false_r.
  pose proof (digits_bounds k) as Bk. set (dt := Z.pos (digits2_pos k)) in *. pose proof (digits_bounds (k * 1000)) as Bd. fold d in Bd. rewrite Pos2Z.inj_mul in Bd, Em.
  assert (Hdt : 0 < dt <= 44). { split; [subst dt; lia|]. destruct (Z_le_gt_dec dt 44); [assumption|]. assert (2 ^ 44 <= 2 ^ (dt - 1)) by (apply Z.pow_le_mono_r; lia). lia. }
  assert (Hd0 : 0 < d) by (subst d; lia).
  assert (Hd : d <= dt + 10). { destruct (Z_le_gt_dec d (dt + 10)); [assumption|]. assert (2 ^ (dt + 10) <= 2 ^ (d - 1)) by (apply Z.pow_le_mono_r; lia). rewrite Z.pow_add_r in H by lia. lia. }
  assert (Hd' : d <= 53). { destruct (Z_le_gt_dec d 53); [assumption|]. assert (2 ^ 53 <= 2 ^ (d - 1)) by (apply Z.pow_le_mono_r; lia). lia. }
  set (t := Z.to_pos (Z.pos k * 2 ^ (53 - dt))).
  assert (P53 : 0 < 2 ^ (53 - dt)) by (apply Z.pow_pos_nonneg; lia).
  assert (Et : Z.pos t = Z.pos k * 2 ^ (53 - dt)) by (subst t; rewrite Z2Pos.id; nia).
  assert (Ht : 2 ^ 52 <= Z.pos t < 2 ^ 53).
  { rewrite Et. replace 52 with (dt - 1 + (53 - dt)) at 1 by lia. replace (2 ^ 53) with (2 ^ (dt + (53 - dt))) by (f_equal; lia). rewrite !Z.pow_add_r by lia. nia. }
  rewrite (round_down s (m * 4611686018427388) t _ (dt - d + 62)); [| |assumption| |].
  - unfold ftrunc. destruct (Z.leb_spec 0 (d - 53 + -62 + (dt - d + 62))); [lia|].
    replace (- (d - 53 + -62 + (dt - d + 62))) with (53 - dt) by lia. rewrite Et, Z.div_mul by lia. destruct s; lia.
  - lia.
  - rewrite Pos2Z.inj_mul, Em, Et.
    assert (Pd : 0 < 2 ^ (53 - d)) by (apply Z.pow_pos_nonneg; lia).
    assert (E1 : Z.pos k * 2 ^ (53 - dt) * 2 ^ (dt - d + 62) = Z.pos k * 2 ^ (53 - d) * 2 ^ 62).
    { rewrite <- !Z.mul_assoc. f_equal. rewrite <- !Z.pow_add_r by lia. f_equal. lia. }
    assert (E2 : 2 ^ (dt - d + 62 - 1) = 2 ^ (53 - d) * 2 ^ dt * 2 ^ 8) by (rewrite <- !Z.pow_add_r by lia; f_equal; lia).
    rewrite E1, E2. replace (Z.pos k * 1000 * 2 ^ (53 - d) * 4611686018427388) with (Z.pos k * 2 ^ (53 - d) * (2 ^ 62 + 96)) by ring. nia.
  - lia.
Qed.
(** seconds, as milliseconds, times 0.001 *)
Theorem seconds_through_millis ts : Z.abs ts <= 2 ^ 43 -> ftrunc (fmul (fofZ (ts * 1000)) (fratio 1 1000)) = ts.
Proof.
  intros H. destruct ts as [|k|k]; [reflexivity| |].
  - apply (milli_round false k). lia.
  - replace (Z.neg k * 1000) with (- (Z.pos k * 1000)) by lia. rewrite (milli_round true k) by lia. reflexivity.
Qed.

(** products of small integers are exact *)
Lemma fmul_small (a b : positive) : Z.pos a * Z.pos b < 2 ^ 53 -> fmul (fofZ (Z.pos a)) (fofZ (Z.pos b)) = fofZ (Z.pos a * Z.pos b).
Proof.
  intros H. assert (Ha : Z.pos a < 2 ^ 53) by nia. assert (Hb : Z.pos b < 2 ^ 53) by nia.
  destruct (fofZ_small a Ha) as (ma & Ea & Ma). destruct (fofZ_small b Hb) as (mb & Eb & Mb).
  change (Z.pos a * Z.pos b) with (Z.pos (a * b)) in *. destruct (fofZ_small (a * b) H) as (m & Ec & Mc). rewrite Ea, Eb, Ec. clear Ea Eb Ec.
  pose proof (digits_bounds a) as Ba. pose proof (digits_bounds b) as Bb. pose proof (digits_bounds (a * b)) as Bc.
  set (da := Z.pos (digits2_pos a)) in *. set (db := Z.pos (digits2_pos b)) in *. set (dc := Z.pos (digits2_pos (a * b))) in *.
  assert (Pa : 0 < da) by (subst da; lia). assert (Pb : 0 < db) by (subst db; lia). assert (Pc : 0 < dc) by (subst dc; lia).
  assert (La : da <= 53). { destruct (Z_le_gt_dec da 53); [assumption|]. assert (2 ^ 53 <= 2 ^ (da - 1)) by (apply Z.pow_le_mono_r; lia). lia. }
  assert (Lb : db <= 53). { destruct (Z_le_gt_dec db 53); [assumption|]. assert (2 ^ 53 <= 2 ^ (db - 1)) by (apply Z.pow_le_mono_r; lia). lia. }
  assert (Lc : dc <= 53). { destruct (Z_le_gt_dec dc 53); [assumption|]. assert (2 ^ 53 <= 2 ^ (dc - 1)) by (apply Z.pow_le_mono_r; lia). lia. }
  assert (Lab : da + db - 2 < dc).
  { destruct (Z_lt_le_dec (da + db - 2) dc); [assumption|exfalso]. assert (2 ^ dc <= 2 ^ (da - 1 + (db - 1))) by (apply Z.pow_le_mono_r; lia).
    rewrite Z.pow_add_r in H0 by lia. rewrite Pos2Z.inj_mul in Bc. nia. }
  unfold fmul, SFmul. cbn [xorb]. rewrite (round_down false (ma * mb) m _ (dc - da - db + 53)).
  - f_equal. lia.
  - lia.
  - rewrite Mc. split.
    + replace 52 with (dc - 1 + (53 - dc)) by lia. rewrite Z.pow_add_r by lia. assert (0 < 2 ^ (53 - dc)) by (apply Z.pow_pos_nonneg; lia). nia.
    + replace (2 ^ 53) with (2 ^ (dc + (53 - dc))) by (f_equal; lia). rewrite Z.pow_add_r by lia. assert (0 < 2 ^ (53 - dc)) by (apply Z.pow_pos_nonneg; lia). nia.
  - assert (E : Z.pos (ma * mb) = Z.pos m * 2 ^ (dc - da - db + 53)).
    { rewrite Pos2Z.inj_mul, Ma, Mb, Mc, Pos2Z.inj_mul. rewrite <- (Z.mul_assoc _ (2 ^ (53 - dc))), <- Z.pow_add_r by lia.
      replace (53 - dc + (dc - da - db + 53)) with (53 - da + (53 - db)) by lia. rewrite Z.pow_add_r by lia. ring. }
    rewrite E. assert (0 < 2 ^ (dc - da - db + 53 - 1)) by (apply Z.pow_pos_nonneg; lia). lia.
  - lia.
Qed.
(** an exact integer, truncated *)
Lemma fofZ_floor (k : positive) : Z.pos k < 2 ^ 53 -> exists m e, fofZ (Z.pos k) = S754_finite false m e /\
  (if 0 <=? e then Z.pos m * 2 ^ e else Z.pos m / 2 ^ (- e)) = Z.pos k.
Proof.
  intros H. destruct (fofZ_small k H) as (m & E & M). exists m, (Z.pos (digits2_pos k) - 53). split; [exact E|]. rewrite M.
  pose proof (digits_bounds k) as B. set (d := Z.pos (digits2_pos k)) in *. assert (Pd : 0 < d) by (subst d; lia).
  assert (Ld : d <= 53). { destruct (Z_le_gt_dec d 53); [assumption|]. assert (2 ^ 53 <= 2 ^ (d - 1)) by (apply Z.pow_le_mono_r; lia). lia. }
  destruct (Z.leb_spec 0 (d - 53)).
  - replace (53 - d) with 0 by lia. replace (d - 53) with 0 by lia. lia.
  - replace (- (d - 53)) with (53 - d) by lia. apply Z.div_mul. apply Z.pow_nonzero; lia.
Qed.

(** ** the 64 bits of a float (f64::to_bits, from_bits) *)
Definition fbits (x : f64) : Z :=
  let sg (s : bool) := if s then 2 ^ 63 else 0 in
  match x with
  | S754_zero s => sg s
  | S754_infinity s => sg s + 2047 * 2 ^ 52
  | S754_nan => 2047 * 2 ^ 52 + 2 ^ 51
  | S754_finite s m e =>
      if Z.pos m <? 2 ^ 52 then sg s + Z.pos m else sg s + (e + 1075) * 2 ^ 52 + (Z.pos m - 2 ^ 52)
  end.
Definition fofbits (b : Z) : f64 :=
  let s := Z.odd (b / 2 ^ 63) in
  let ex := (b / 2 ^ 52) mod 2048 in
  let man := b mod 2 ^ 52 in
  if ex =? 0 then (if man =? 0 then S754_zero s else S754_finite s (Z.to_pos man) (-1074))
  else if ex =? 2047 then (if man =? 0 then S754_infinity s else S754_nan)
  else S754_finite s (Z.to_pos (man + 2 ^ 52)) (ex - 1075).
(** the values of Rust's f64 among the triples *)
Definition f_ok (x : f64) : Prop := valid_binary fprec femax x = true.

Lemma fofbits_parts (s : bool) ex man : 0 <= ex < 2048 -> 0 <= man < 2 ^ 52 ->
  let b := (if s then 2 ^ 63 else 0) + ex * 2 ^ 52 + man in
  Z.odd (b / 2 ^ 63) = s /\ (b / 2 ^ 52) mod 2048 = ex /\ b mod 2 ^ 52 = man /\ 0 <= b < 2 ^ 64.
Proof.
  intros He Hm b.
  assert (E1 : b / 2 ^ 63 = if s then 1 else 0) by (symmetry; apply (Z.div_unique _ _ _ (ex * 2 ^ 52 + man)); subst b; destruct s; lia).
  assert (E2 : b / 2 ^ 52 = (if s then 2048 else 0) + ex) by (symmetry; apply (Z.div_unique _ _ _ man); subst b; destruct s; lia).
  rewrite E1, E2. split; [destruct s; reflexivity|]. split; [|split].
  - symmetry. apply (Z.mod_unique _ _ (if s then 1 else 0)); destruct s; lia.
  - symmetry. apply (Z.mod_unique _ _ ((if s then 2048 else 0) + ex)); subst b; destruct s; lia.
  - subst b. destruct s; lia.
Qed.
Theorem fbits_spec x : f_ok x -> 0 <= fbits x < 2 ^ 64 /\ fofbits (fbits x) = x.
Proof.
  intros Hx. destruct x as [s|s| |s m e].
  - destruct s; split; (lia || reflexivity) || (cbn; lia).
  - destruct s; split; (reflexivity || (cbn; lia)).
  - split; [cbn; lia|reflexivity].
  - unfold f_ok in Hx. cbn [valid_binary] in Hx. unfold bounded, canonical_mantissa, fexp, emin, fprec, femax in Hx.
    apply andb_prop in Hx as [H1 H2]. apply Zeq_bool_eq in H1. apply Z.leb_le in H2.
    pose proof (digits_bounds m) as B. set (d := Z.pos (digits2_pos m)) in *.
    assert (0 < d) by (subst d; lia).
    assert (Hd : d <= 53) by lia. assert (Hm : Z.pos m < 2 ^ 53) by (assert (2 ^ d <= 2 ^ 53) by (apply Z.pow_le_mono_r; lia); lia).
    unfold fbits. destruct (Z.ltb_spec (Z.pos m) (2 ^ 52)) as [L|L].
    + assert (e = -1074). { destruct (Z_le_gt_dec 53 d); [|lia]. assert (2 ^ 52 <= 2 ^ (d - 1)) by (apply Z.pow_le_mono_r; lia). lia. }
      subst e. destruct (fofbits_parts s 0 (Z.pos m)) as (P1 & P2 & P3 & P4); [lia|lia|]. rewrite Z.mul_0_l, Z.add_0_r in P1, P2, P3, P4.
      split; [exact P4|]. unfold fofbits. rewrite P1, P2, P3. reflexivity.
    + assert (d = 53). { destruct (Z_le_gt_dec 53 d); [lia|]. assert (2 ^ d <= 2 ^ 52) by (apply Z.pow_le_mono_r; lia). lia. }
      destruct (fofbits_parts s (e + 1075) (Z.pos m - 2 ^ 52)) as (P1 & P2 & P3 & P4); [lia|lia|].
      split; [exact P4|]. unfold fofbits. rewrite P1, P2, P3.
      destruct (Z.eqb_spec (e + 1075) 0); [lia|]. destruct (Z.eqb_spec (e + 1075) 2047); [lia|].
      replace (Z.pos m - 2 ^ 52 + 2 ^ 52) with (Z.pos m) by lia. replace (e + 1075 - 1075) with e by lia. reflexivity.
Qed.
