(** * Adding floats, and whole numbers as floats: SpecFloat's operations give the nearest float. *)
From Verif Require Import Base FloatFacts RoundSpec RoundProofs NumberModel.
Open Scope Z_scope.

Lemma shl_align_spec m e e' : e' <= e -> Z.pos (fst (shl_align m e e')) = Z.pos m * 2 ^ (e - e') /\ snd (shl_align m e e') = e'.
Proof.
  intros H. unfold shl_align. destruct (e' - e) as [|p|p] eqn:E; [|lia|].
  - cbn [fst snd]. replace (e - e') with 0 by lia. rewrite Z.pow_0_r. lia.
  - cbn [fst snd]. replace (e - e') with (Z.pos p) by lia. rewrite shift_pos_correct, Zpower_pos_nat, Zpower_nat_Z, positive_nat_Z. lia.
Qed.
Lemma shl_align_stay m e e' : e <= e' -> shl_align m e e' = (m, e).
Proof. intros H. unfold shl_align. destruct (e' - e) eqn:E; [reflexivity|reflexivity|lia]. Qed.
(** a whole number of times 2^e is rounded to the nearest float *)
Theorem binary_round_nearest s m e : -1074 <= e -> nearest s (Z.pos m * 2 ^ (e + 1074)) (2 ^ 1074) (binary_round fprec femax s m e).
Proof.
  intros He. unfold binary_round. rewrite fexp_fx. pose proof (digits_bounds m) as B. set (d := Z.pos (digits2_pos m)) in *.
  assert (HU : 0 < 2 ^ 1074) by (apply Z.pow_pos_nonneg; [reflexivity|discriminate]). set (U := 2 ^ 1074) in *.
  assert (G : forall k f, -1074 <= f -> f <= e -> Z.pos k = Z.pos m * 2 ^ (e - f) -> f <= fx (d + e) -> nearest s (Z.pos m * 2 ^ (e + 1074)) U (binary_round_aux fprec femax s (Z.pos k) f loc_Exact)).
  { intros k f H1 H2 Ek Hf. assert (Dk : Zdigits2 (Z.pos k) = d + (e - f)).
    { cbn [Zdigits2]. assert (Hd : 0 < d) by (subst d; reflexivity). apply digits_unique; [lia|]. rewrite Ek. replace (d + (e - f) - 1) with (d - 1 + (e - f)) by lia. rewrite !Z.pow_add_r by lia.
      assert (0 < 2 ^ (e - f)) by (apply Z.pow_pos_nonneg; lia). nia. }
    apply round_aux_nearest; [discriminate|assumption|assumption|rewrite Dk; replace (d + (e - f) + f) with (d + e) by lia; assumption|].
    unfold lies. cbn [shr_record_of_loc loc_of_shr_record shr_m]. rewrite Ek. replace (e + 1074) with ((e - f) + (f + 1074)) by lia. rewrite Z.pow_add_r by lia. fold U. ring. }
  destruct (Z_le_gt_dec e (fx (d + e))) as [L|L].
  - rewrite shl_align_stay by assumption. apply G; try lia. rewrite Z.sub_diag, Z.mul_1_r. reflexivity.
  - destruct (shl_align_spec m e (fx (d + e)) ltac:(lia)) as [E1 E2]. destruct (shl_align m e (fx (d + e))) as [k f]. cbn [fst snd] in *. subst f. apply G; try lia. unfold fx. lia.
Qed.

(** ** what a finite float stands for, in units of 2^-1074 *)
Definition sunits (x : f64) : Z := if minus x then - units x else units x.
Lemma units_nonneg x : finite x -> 0 <= units x.
Proof. destruct x as [s|s| |s k f]; cbn [units]; intros _; try reflexivity. apply Z.mul_nonneg_nonneg; [discriminate|apply Z.pow_nonneg; discriminate]. Qed.
Lemma nearest_scale s n d k x : 0 < d -> 0 < k -> nearest s (n * k) (d * k) x <-> nearest s n d x.
Proof.
  intros Hd Hk. unfold nearest. assert (T : too_large (n * k) (d * k) <-> too_large n d).
  { unfold too_large. rewrite !Z.mul_assoc. symmetry. apply Z.mul_le_mono_pos_r. assumption. }
  assert (O : forall y, off (n * k) (d * k) y = off n d y * k).
  { intros y. unfold off. set (U := 2 ^ 1074). replace (units y * (d * k) - n * k * U) with ((units y * d - n * U) * k) by ring. rewrite Z.abs_mul. f_equal. apply Z.abs_eq. apply Z.lt_le_incl. assumption. }
  rewrite T. split; (intros [H1 H2]; split; [exact H1|]; intros N; destruct (H2 N) as (A & B & C); split; [exact A|]; split; [exact B|]; intros y Fy; destruct (C y Fy) as [C1 C2]).
  - rewrite !O in *. split; [apply (proj2 (Z.mul_le_mono_pos_r _ _ k Hk)); exact C1|]. intros E. apply C2. rewrite E. reflexivity.
  - rewrite !O in *. split; [apply (proj1 (Z.mul_le_mono_pos_r _ _ k Hk)); exact C1|]. intros E. apply C2. apply (Z.mul_cancel_r _ _ k); [lia|exact E].
Qed.
Lemma exact_nearest s n d x : 0 < d -> finite x -> minus x = s -> units x * d = n * 2 ^ 1074 -> ~ too_large n d -> nearest s n d x.
Proof.
  intros Hd F M U T. split; [intros X; contradiction|]. intros _. split; [exact F|]. split; [exact M|]. intros y Fy. unfold off. rewrite U, Z.sub_diag. split; [apply Z.abs_nonneg|].
  cbn [Z.abs]. intros E Ne. exfalso. apply Ne. apply (Z.mul_cancel_r _ _ d); [intros ->; discriminate Hd|]. rewrite U. apply (proj1 (Z.abs_0_iff _)) in E. apply Zminus_eq. exact E.
Qed.
(** nothing finite is too large *)
Lemma finite_fits x : finite x -> ~ too_large (units x) (2 ^ 1074).
Proof.
  intros F T. unfold too_large in T. destruct x as [s|s| |s k f]; cbn [units] in T; try contradiction.
  apply valid_parts in F as [K1 K2]. apply Z.le_ngt in T. apply T. clear T.
    assert (P1 : 2 ^ (f + 1074) <= 2 ^ 2045) by (apply Z.pow_le_mono_r; [reflexivity|lia]). assert (P0 : 0 < 2 ^ (f + 1074)) by (apply Z.pow_pos_nonneg; [reflexivity|lia]).
    assert (E : (2 ^ 54 - 1) * 2 ^ 970 * 2 ^ 1074 = (2 ^ 54 - 1) * 2 ^ 2044) by (rewrite <- Z.mul_assoc, <- Z.pow_add_r by discriminate; reflexivity). rewrite E. clear E.
    assert (E : 2 ^ 2045 = 2 * 2 ^ 2044) by (apply (Z.pow_succ_r 2 2044); discriminate). assert (P2 : 0 < 2 ^ 2044) by (apply Z.pow_pos_nonneg; [reflexivity|discriminate]).
    set (V := 2 ^ 2044) in *. set (V2 := 2 ^ 2045) in *. clearbody V V2. set (x := 2 ^ (f + 1074)) in *. clearbody x. nia.
Qed.
(** the sum of two floats is rounded to the nearest *)
Lemma pow_pos k : 0 <= k -> 0 < 2 ^ k.
Proof. intros H. apply Z.pow_pos_nonneg; [reflexivity|exact H]. Qed.
Lemma self_nearest x : finite x -> sunits x <> 0 -> nearest (sunits x <? 0) (Z.abs (sunits x)) (2 ^ 1074) x.
Proof.
  intros F N. pose proof (units_nonneg x F) as P. assert (E : Z.abs (sunits x) = units x /\ minus x = (sunits x <? 0)) by (unfold sunits in *; destruct (minus x); lia). destruct E as [-> E].
  apply exact_nearest; [apply pow_pos; discriminate|exact F|exact E|reflexivity|apply finite_fits; exact F].
Qed.
Lemma aligned s k f s' k' f' : f_ok (S754_finite s k f) -> f_ok (S754_finite s' k' f') -> exists m ez, -1074 <= ez /\
  sunits (S754_finite s k f) + sunits (S754_finite s' k' f') = m * 2 ^ (ez + 1074) /\ fadd (S754_finite s k f) (S754_finite s' k' f') = binary_normalize fprec femax m ez false.
Proof.
  intros Fx Fy. destruct (valid_parts _ _ _ Fx) as [_ Hf]. destruct (valid_parts _ _ _ Fy) as [_ Hf']. unfold fadd, SFadd. set (ez := Z.min f f').
  assert (He : -1074 <= ez /\ ez <= f /\ ez <= f') by (subst ez; lia). destruct (shl_align_spec k f ez) as [E1 _]; [lia|]. destruct (shl_align_spec k' f' ez) as [E2 _]; [lia|]. rewrite E1, E2.
  eexists _, ez. split; [lia|]. split; [|reflexivity]. unfold sunits. cbn [minus units].
  replace (f + 1074) with ((f - ez) + (ez + 1074)) by lia. replace (f' + 1074) with ((f' - ez) + (ez + 1074)) by lia. rewrite (Z.pow_add_r 2 (f - ez)), (Z.pow_add_r 2 (f' - ez)) by lia. destruct s, s'; cbn [cond_Zopp]; ring.
Qed.
Lemma not_zero s k f : f_ok (S754_finite s k f) -> sunits (S754_finite s k f) <> 0.
Proof.
  intros F. destruct (valid_parts _ _ _ F) as [_ Hf]. pose proof (pow_pos (f + 1074) ltac:(lia)). unfold sunits. cbn [minus units]. destruct s; lia.
Qed.
Lemma sunits_zero s : sunits (S754_zero s) = 0.
Proof. destruct s; reflexivity. Qed.
Theorem fadd_nearest x y : finite x -> finite y -> sunits x + sunits y <> 0 -> nearest (sunits x + sunits y <? 0) (Z.abs (sunits x + sunits y)) (2 ^ 1074) (fadd x y).
Proof.
  intros Fx Fy N. destruct x as [s|s| |s k f], y as [s'|s'| |s' k' f']; cbn [finite] in Fx, Fy; try contradiction.
  - exfalso. apply N. rewrite !sunits_zero. reflexivity.
  - rewrite sunits_zero, Z.add_0_l in *. apply (self_nearest (S754_finite s' k' f') Fy N).
  - rewrite sunits_zero, Z.add_0_r in *. apply (self_nearest (S754_finite s k f) Fx N).
  - destruct (aligned _ _ _ _ _ _ Fx Fy) as (m & ez & He & E & ->). rewrite E in *. pose proof (pow_pos (ez + 1074) ltac:(lia)) as P0. destruct m as [|m|m]; [exfalso; apply N; reflexivity| |]; cbn [binary_normalize].
    + assert (X : (Z.pos m * 2 ^ (ez + 1074) <? 0) = false /\ Z.abs (Z.pos m * 2 ^ (ez + 1074)) = Z.pos m * 2 ^ (ez + 1074)) by lia. destruct X as [-> ->]. apply binary_round_nearest. exact He.
    + assert (X : (Z.neg m * 2 ^ (ez + 1074) <? 0) = true /\ Z.abs (Z.neg m * 2 ^ (ez + 1074)) = Z.pos m * 2 ^ (ez + 1074)) by lia. destruct X as [-> ->]. apply binary_round_nearest. exact He.
Qed.
Lemma fadd_cancels x y : finite x -> finite y -> sunits x + sunits y = 0 -> exists s, fadd x y = S754_zero s /\ (s = true -> x = S754_zero true /\ y = S754_zero true).
Proof.
  intros Fx Fy N. destruct x as [s|s| |s k f], y as [s'|s'| |s' k' f']; cbn [finite] in Fx, Fy; try contradiction.
  - exists (andb s s'). destruct s, s'; cbn; (split; [reflexivity|]); intros; try discriminate; auto.
  - exfalso. rewrite sunits_zero, Z.add_0_l in N. exact (not_zero _ _ _ Fy N).
  - exfalso. rewrite sunits_zero, Z.add_0_r in N. exact (not_zero _ _ _ Fx N).
  - exists false. split; [|discriminate]. destruct (aligned _ _ _ _ _ _ Fx Fy) as (m & ez & He & E & ->). rewrite E in N. pose proof (pow_pos (ez + 1074) ltac:(lia)) as P0. assert (m = 0) as -> by nia. reflexivity.
Qed.

(** ** whole numbers *)
Lemma nearest_units s n x : nearest s (n * 2 ^ 1074) (2 ^ 1074) x <-> nearest s n 1 x.
Proof. pose proof (nearest_scale s n 1 (2 ^ 1074) x ltac:(reflexivity) (pow_pos 1074 ltac:(discriminate))) as H. rewrite Z.mul_1_l in H. exact H. Qed.
Theorem fofZ_nearest z : z <> 0 -> nearest (z <? 0) (Z.abs z) 1 (fofZ z).
Proof.
  intros N. apply (proj1 (nearest_units _ _ _)).
  destruct z as [|m|m]; [contradiction| |]; unfold fofZ; cbn [binary_normalize Z.abs]; apply (binary_round_nearest _ m 0); discriminate.
Qed.
(** below 2^53 they are floats *)
Lemma whole_float k : Z.pos k <= 2 ^ 53 -> exists m e, f_ok (S754_finite false m e) /\ Z.pos m * 2 ^ (e + 1074) = Z.pos k * 2 ^ 1074.
Proof.
  intros Hk. destruct (Z.eq_dec (Z.pos k) (2 ^ 53)) as [E|E].
  - exists (2 ^ 52)%positive, 1. split; [reflexivity|]. rewrite E. change (1 + 1074) with (Z.succ 1074). rewrite Z.pow_succ_r by discriminate. change (2 ^ 53) with (Z.pos (2 ^ 52) * 2). ring.
  - pose proof (digits_bounds k) as B. set (d := Z.pos (digits2_pos k)) in *. assert (Hd : 0 < d) by (subst d; reflexivity). assert (Hd' : d <= 53).
    { destruct (Z_le_gt_dec d 53); [assumption|]. assert (2 ^ 53 <= 2 ^ (d - 1)) by (apply Z.pow_le_mono_r; lia). lia. }
    assert (P : 0 < 2 ^ (53 - d)) by (apply pow_pos; lia). exists (Z.to_pos (Z.pos k * 2 ^ (53 - d))), (d - 53). assert (Ek : Z.pos (Z.to_pos (Z.pos k * 2 ^ (53 - d))) = Z.pos k * 2 ^ (53 - d)) by (apply Z2Pos.id; lia). split.
    + apply valid_make; rewrite ?Ek; [|lia|right].
      * replace (2 ^ 53) with (2 ^ d * 2 ^ (53 - d)) by (rewrite <- Z.pow_add_r by lia; f_equal; lia). apply Z.mul_lt_mono_pos_r; [exact P|lia].
      * replace (2 ^ 52) with (2 ^ (d - 1) * 2 ^ (53 - d)) by (rewrite <- Z.pow_add_r by lia; f_equal; lia). apply Z.mul_le_mono_pos_r; [exact P|lia].
    + rewrite Ek. assert (X : 1074 = (53 - d) + (d - 53 + 1074)) by lia. assert (Y : 0 <= d - 53 + 1074) by lia. set (a := d - 53 + 1074) in *. set (b := 53 - d) in *.
      assert (Hb : 0 <= b) by (subst b; lia). clearbody a b. rewrite X, Z.pow_add_r by assumption. ring.
Qed.
Lemma fofZ_at (s : bool) k m e : f_ok (S754_finite false m e) -> Z.pos m * 2 ^ (e + 1074) = Z.pos k * 2 ^ 1074 -> fofZ (if s then Z.neg k else Z.pos k) = S754_finite s m e /\ f_ok (S754_finite s m e).
Proof.
  intros F E. assert (F' : f_ok (S754_finite s m e)) by exact F. split; [|exact F']. eapply nearest_unique; [|apply fofZ_nearest; destruct s; discriminate|]; [reflexivity|].
  apply (proj1 (nearest_units _ _ _)). replace (Z.abs (if s then Z.neg k else Z.pos k)) with (Z.pos k) by (destruct s; reflexivity). rewrite <- E.
  apply exact_nearest; [apply pow_pos; discriminate|exact F'|destruct s; reflexivity|reflexivity|apply (finite_fits (S754_finite s m e) F')].
Qed.
Theorem fofZ_exact z : Z.abs z <= 2 ^ 53 -> finite (fofZ z) /\ sunits (fofZ z) = z * 2 ^ 1074.
Proof.
  intros Hz. destruct z as [|k|k]; [split; [reflexivity|reflexivity]| |]; destruct (whole_float k Hz) as (m & e & F & E).
  - destruct (fofZ_at false k m e F E) as [-> F']. split; [exact F'|exact E].
  - destruct (fofZ_at true k m e F E) as [-> F']. split; [exact F'|]. unfold sunits. cbn [minus units]. rewrite E. symmetry. apply (Z.mul_opp_l (Z.pos k)).
Qed.
Lemma sign_scaled c P : 0 < P -> (c * P <? 0) = (c <? 0).
Proof. intros H. destruct (Z.ltb_spec (c * P) 0), (Z.ltb_spec c 0); try reflexivity; exfalso; nia. Qed.
(** and add up *)
Theorem fadd_whole a b : Z.abs a <= 2 ^ 53 -> Z.abs b <= 2 ^ 53 -> Z.abs (a + b) <= 2 ^ 53 -> fadd (fofZ a) (fofZ b) = fofZ (a + b).
Proof.
  intros Ha Hb Hs. destruct (fofZ_exact a Ha) as [Fa Ea]. destruct (fofZ_exact b Hb) as [Fb Eb]. assert (Es : sunits (fofZ a) + sunits (fofZ b) = (a + b) * 2 ^ 1074) by (rewrite Ea, Eb; symmetry; apply Z.mul_add_distr_r).
  destruct (Z.eq_dec (a + b) 0) as [Z0|Z0].
  - rewrite Z0 in Es. destruct (fadd_cancels (fofZ a) (fofZ b) Fa Fb Es) as ([|] & E & X).
    + destruct (X eq_refl) as [X1 _]. exfalso. rewrite X1, sunits_zero in Ea. symmetry in Ea. apply Z.mul_eq_0 in Ea as [-> |Ea]; [discriminate X1|]. pose proof (pow_pos 1074 ltac:(discriminate)) as P. rewrite Ea in P. discriminate P.
    + rewrite E, Z0. reflexivity.
  - pose proof (pow_pos 1074 ltac:(discriminate)) as P. assert (N : sunits (fofZ a) + sunits (fofZ b) <> 0) by (rewrite Es; apply Z.neq_mul_0; split; [exact Z0|intros X; rewrite X in P; discriminate P]).
    pose proof (fadd_nearest _ _ Fa Fb N) as H. rewrite Es, Z.abs_mul, (Z.abs_eq (2 ^ 1074)) in H by (apply Z.lt_le_incl; exact P). apply (proj1 (nearest_units _ _ _)) in H.
    rewrite (sign_scaled _ _ P) in H. eapply nearest_unique; [|exact H|apply fofZ_nearest; exact Z0]. reflexivity.
Qed.

(** ** what is not a number *)
Lemma fofZ_number z : fofZ z <> fnan.
Proof.
  destruct (Z.eq_dec z 0) as [->|N]; [discriminate|]. destruct (fofZ_nearest z N) as [H1 H2]. intros E. rewrite E in *.
  assert (T : ~ too_large (Z.abs z) 1) by (intros T; discriminate (H1 T)). destruct (H2 T) as [[] _].
Qed.
Lemma shr_nonneg mrs e n : 0 <= shr_m mrs -> 0 <= shr_m (fst (shr mrs e n)).
Proof.
  intros H. destruct n as [|p|p]; cbn [shr fst]; try exact H. rewrite iter_pos_nat, shr_iter by exact H. apply Z.div_pos; [exact H|]. apply Z.pow_pos_nonneg; [reflexivity|apply Nat2Z.is_nonneg].
Qed.
Lemma round_aux_number s m e l : 0 <= m -> binary_round_aux fprec femax s m e l <> S754_nan.
Proof.
  intros Hm. unfold binary_round_aux, shr_fexp. set (k := fexp _ _ _ - e). clearbody k. pose proof (shr_nonneg (shr_record_of_loc m l) e k) as H1.
  assert (E0 : shr_m (shr_record_of_loc m l) = m) by (destruct l as [|[]]; reflexivity). rewrite E0 in H1. specialize (H1 Hm). destruct (shr (shr_record_of_loc m l) e k) as [mrs e']. cbn [fst] in H1.
  assert (H2 : 0 <= round_nearest_even (shr_m mrs) (loc_of_shr_record mrs)) by (destruct (loc_of_shr_record mrs) as [|[]]; cbn [round_nearest_even]; try destruct (Z.even (shr_m mrs)); lia).
  set (r := round_nearest_even _ _) in *. clearbody r. set (k' := fexp _ _ _ - e'). clearbody k'. pose proof (shr_nonneg (shr_record_of_loc r loc_Exact) e' k' H2) as H3. destruct (shr (shr_record_of_loc r loc_Exact) e' k') as [mrs2 e2]. cbn [fst] in H3.
  destruct (shr_m mrs2); [discriminate|destruct (Z.leb _ _); discriminate|exfalso; lia].
Qed.
Lemma div_core_nonneg a ea b eb : 0 <= fst (fst (SFdiv_core_binary fprec femax (Z.pos a) ea (Z.pos b) eb)).
Proof.
  unfold SFdiv_core_binary. set (e' := Z.min _ _). set (m' := match _ with 0 => _ | _ => _ end). assert (Hm : 0 <= m').
  { unfold m'. destruct (ea - eb - e'); [discriminate|apply Z.shiftl_nonneg; discriminate|discriminate]. }
  clearbody m'. pose proof (Z_div_mod m' (Z.pos b) eq_refl) as D. destruct (Z.div_eucl m' (Z.pos b)) as [q r]. cbn [fst]. destruct D as [D1 D2]. nia.
Qed.
(** a product is no number when a factor is none, or nothing is multiplied by what is without bounds *)
Theorem fmul_number x y : fmul x y = fnan <-> x = fnan \/ y = fnan \/ (exists s s', x = S754_zero s /\ y = S754_infinity s') \/ (exists s s', x = S754_infinity s /\ y = S754_zero s').
Proof.
  unfold fmul, fnan. destruct x as [s|s| |s k f], y as [s'|s'| |s' k' f']; cbn [SFmul]; split; intros H; try discriminate; auto; try (right; right; left; eauto; fail); try (right; right; right; eauto; fail);
    try (decompose [or ex and] H; discriminate).
  - exfalso. revert H. apply round_aux_number. discriminate.
Qed.
(** so is the reciprocal of what is none *)
Theorem frecip_number r : fdiv fone r = fnan <-> r = fnan.
Proof.
  change fone with (S754_finite false 4503599627370496 (-52)). unfold fdiv, fnan. destruct r as [s|s| |s k f]; cbn [SFdiv]; split; intros H; try discriminate; auto.
  exfalso. pose proof (div_core_nonneg 4503599627370496 (-52) k f) as P. destruct (SFdiv_core_binary fprec femax 4503599627370496 (-52) (Z.pos k) f) as [[mz ez] lz]. cbn [fst] in P. revert H. apply round_aux_number. exact P.
Qed.
