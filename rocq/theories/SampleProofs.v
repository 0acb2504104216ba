(** * Products, quotients and how far rounding leads away. *)
From Verif Require Import Base FloatFacts RoundSpec RoundProofs NumberModel ArithProofs.
Open Scope Z_scope.

Lemma finite_units s k f : f_ok (S754_finite s k f) -> 0 < units (S754_finite s k f).
Proof. intros F. cbn [units]. apply Z.mul_pos_pos; [reflexivity|]. apply pow_pos. destruct (valid_parts _ _ _ F). lia. Qed.

(** a quotient is the nearest float, where the exponents are not too far apart; so every reciprocal is *)
Theorem fdiv_nearest s k f s' k' f' : f_ok (S754_finite s k f) -> f_ok (S754_finite s' k' f') -> -1074 <= f - f' ->
  nearest (xorb s s') (units (S754_finite s k f)) (units (S754_finite s' k' f')) (fdiv (S754_finite s k f) (S754_finite s' k' f')).
Proof.
  intros Fx Fy Hg. pose proof (finite_units _ _ _ Fy) as Hu. destruct (valid_parts _ _ _ Fx) as [_ Hf]. destruct (valid_parts _ _ _ Fy) as [_ Hf'].
  unfold fdiv, SFdiv, SFdiv_core_binary. rewrite fexp_fx. set (d1 := Zdigits2 (Z.pos k)). set (d2 := Zdigits2 (Z.pos k')). cbn [units] in *. set (g := f - f') in *. replace (d1 + f - (d2 + f')) with (d1 - d2 + g) by lia.
  set (e := Z.min (fx (d1 - d2 + g)) g). assert (He : -1074 <= e <= g) by (unfold e, fx; lia).
  assert (E : match g - e with 0 => Z.pos k | Z.pos _ => Z.shiftl (Z.pos k) (g - e) | Z.neg _ => 0 end = Z.pos k * 2 ^ (g - e)).
  { assert (0 <= g - e) by lia. destruct (g - e) eqn:X; [rewrite Z.mul_1_r; reflexivity|apply Z.shiftl_mul_pow2; lia|lia]. }
  rewrite E. clear E. set (n := Z.pos k) in *. set (d := Z.pos k') in *. assert (Hn : 0 < n) by reflexivity. assert (Hd : 0 < d) by reflexivity.
  destruct (Z.div_eucl (n * 2 ^ (g - e)) d) as [q r] eqn:D. pose proof (Z_div_mod (n * 2 ^ (g - e)) d ltac:(lia)) as DM. rewrite D in DM. clear D. destruct DM as [DM Hr].
  assert (P2 : 0 < 2 ^ (g - e)) by (apply pow_pos; lia). assert (Hq : 0 <= q) by (clearbody n d; nia).
  apply round_aux_nearest; [assumption|lia|assumption| |].
  - destruct (digitsZ n Hn) as [D1 B1]. destruct (digitsZ d Hd) as [D2 B2]. fold d1 in D1, B1. fold d2 in D2, B2. destruct (Z.eq_dec e (-1074)) as [->|Hne]; [unfold fx; lia|].
    assert (Hk : d1 - d2 + g <= Zdigits2 q + e).
    { destruct (Z.eq_dec q 0) as [->|Hz].
      - exfalso. rewrite Z.mul_0_r, Z.add_0_l in DM. assert (2 ^ (d1 - 1) * 2 ^ (g - e) < 2 ^ d2) by (clearbody n d; nia). rewrite <- Z.pow_add_r in H by lia. apply Z.pow_lt_mono_r_iff in H; [|lia|lia]. unfold e, fx in *. lia.
      - destruct (digitsZ q ltac:(lia)) as [D3 B3]. set (j := Zdigits2 q) in *. assert (H : 2 ^ (d1 - 1) * 2 ^ (g - e) < 2 ^ j * 2 ^ d2).
        { apply Z.le_lt_trans with (n * 2 ^ (g - e)); [apply Z.mul_le_mono_nonneg_r; lia|]. rewrite DM. apply Z.lt_le_trans with ((q + 1) * d); [clearbody n d; nia|]. apply Z.mul_le_mono_nonneg; lia. }
        rewrite <- !Z.pow_add_r in H by lia. apply Z.pow_lt_mono_r_iff in H; [|lia|lia]. lia. }
    unfold fx in *. unfold e, fx in *. lia.
  - replace (2 ^ (e + 1074) * (d * 2 ^ (f' + 1074))) with (2 ^ (e + 1074) * 2 ^ (f' + 1074) * d) by ring.
    replace (n * 2 ^ (f + 1074) * 2 ^ 1074) with ((q * d + r) * (2 ^ (e + 1074) * 2 ^ (f' + 1074))).
    + apply new_location_lies; [assumption|assumption|]. apply Z.mul_pos_pos; apply pow_pos; lia.
    + replace (q * d + r) with (n * 2 ^ (g - e)) by lia. rewrite <- !Z.mul_assoc, <- !Z.pow_add_r by lia. do 2 f_equal. unfold g. lia.
Qed.
Theorem frecip_nearest r : finite r -> 0 < units r -> nearest (minus r) (2 ^ 1074) (units r) (fdiv fone r).
Proof.
  intros F P. destruct r as [s|s| |s k f]; try (cbn in P; discriminate P). cbn [finite] in F. destruct (valid_parts _ _ _ F) as [_ Hf].
  pose proof (fdiv_nearest false 4503599627370496 (-52) s k f eq_refl F ltac:(lia)) as H. replace (xorb false s) with s in H by (destruct s; reflexivity).
  replace (units (S754_finite false 4503599627370496 (-52))) with (2 ^ 1074) in H; [exact H|]. cbn [units]. change (Z.pos 4503599627370496) with (2 ^ 52). rewrite <- Z.pow_add_r by discriminate. reflexivity.
Qed.
(** a product is, where the exponents do not fall below the least *)
Theorem fmul_nearest s k f s' k' f' : f_ok (S754_finite s k f) -> f_ok (S754_finite s' k' f') -> -1074 <= f + f' ->
  nearest (xorb s s') (units (S754_finite s k f) * units (S754_finite s' k' f')) (2 ^ 1074 * 2 ^ 1074) (fmul (S754_finite s k f) (S754_finite s' k' f')).
Proof.
  intros Fx Fy Hg. destruct (valid_parts _ _ _ Fx) as [_ Hf]. destruct (valid_parts _ _ _ Fy) as [_ Hf']. unfold fmul, SFmul. cbn [units].
  apply round_aux_nearest; [discriminate|exact Hg|apply Z.mul_pos_pos; apply pow_pos; discriminate| |].
  - assert (D : 53 <= Zdigits2 (Z.pos (k * k'))); [|unfold fx; lia].
    destruct (digitsZ (Z.pos (k * k')) eq_refl) as [D0 [_ B]]. assert (H : 2 ^ 52 <= Z.pos (k * k')).
    { rewrite Pos2Z.inj_mul. change (2 ^ 52) with 4503599627370496 in *. destruct (valid_full _ _ _ Fx) as [->|H]; [|change (2 ^ 52) with 4503599627370496 in H; nia]. destruct (valid_full _ _ _ Fy) as [->|H]; [lia|change (2 ^ 52) with 4503599627370496 in H; nia]. }
    assert (X : 2 ^ 52 < 2 ^ Zdigits2 (Z.pos (k * k'))) by lia. apply Z.pow_lt_mono_r_iff in X; [lia|reflexivity|lia].
  - unfold lies. cbn [shr_record_of_loc loc_of_shr_record shr_m]. rewrite Pos2Z.inj_mul. set (U := 2 ^ 1074). replace (2 ^ (f + f' + 1074) * (U * U)) with (2 ^ (f + 1074) * 2 ^ (f' + 1074) * U); [ring|].
    transitivity (2 ^ (f + f' + 1074) * U * U); [|ring]. f_equal. unfold U. rewrite <- !Z.pow_add_r by lia. f_equal. lia.
Qed.

(** ** the nearest float is near *)
Lemma float_at s m j : 2 ^ 52 <= m < 2 ^ 53 -> 0 <= j <= 2045 -> exists y, finite y /\ minus y = s /\ units y = m * 2 ^ j.
Proof.
  intros Hm Hj. destruct m as [|m|m]; [exfalso; destruct Hm as [H _]; apply H; reflexivity| |exfalso; destruct Hm as [H _]; apply H; reflexivity].
  exists (S754_finite s m (j - 1074)). split; [|split; [reflexivity|]]. { cbn [finite]. apply valid_make; [exact (proj2 Hm)|lia|right; exact (proj1 Hm)]. } cbn [units]. do 2 f_equal. lia.
Qed.
Lemma between W d m E k : 0 < d -> 0 <= E -> m * E * d <= W -> W < (m + 1) * E * d -> 0 < m -> k <= m -> 0 <= k ->
  (2 * k * Z.abs (m * E * d - W) <= W \/ 2 * k * Z.abs ((m + 1) * E * d - W) <= W).
Proof.
  intros Hd HE H1 H2 Hm Hk Hk0. replace ((m + 1) * E * d) with (m * E * d + E * d) in * by ring. replace (m * E * d) with (m * (E * d)) in * by ring. assert (Pe : 0 <= E * d) by (apply Z.mul_nonneg_nonneg; lia).
  set (P := E * d) in *. clearbody P. clear HE Hd. assert (k * P <= m * P) by (apply Z.mul_le_mono_nonneg_r; lia). set (v := m * P) in *. clearbody v.
  destruct (Z_le_gt_dec (2 * (W - v)) P); [left|right].
  - rewrite Z.abs_neq by lia. nia.
  - rewrite Z.abs_eq by lia. nia.
Qed.
Theorem nearest_close s n d x : 0 < n -> 0 < d -> 2 ^ 52 * d <= n * 2 ^ 1074 -> ~ too_large n d -> nearest s n d x -> off n d x * 2 ^ 53 <= n * 2 ^ 1074.
Proof.
  intros Hn Hd Hlow T [_ H]. destruct (H T) as (_ & _ & N). clear H. assert (HW : 0 < n * 2 ^ 1074) by (apply Z.mul_pos_pos; [exact Hn|apply pow_pos; discriminate]).
  assert (T' : ~ (2 ^ 54 - 1) * (2 ^ 2044 * d) <= n * 2 ^ 1074).
  { intros X. apply T. unfold too_large. apply (Z.mul_le_mono_pos_r _ _ (2 ^ 1074)); [apply pow_pos; discriminate|]. revert X. replace (2 ^ 2044) with (2 ^ 970 * 2 ^ 1074) by (rewrite <- Z.pow_add_r by discriminate; reflexivity). intros X.
    replace ((2 ^ 54 - 1) * 2 ^ 970 * d * 2 ^ 1074) with ((2 ^ 54 - 1) * (2 ^ 970 * 2 ^ 1074 * d)) by ring. exact X. }
  unfold off in *. set (W := n * 2 ^ 1074) in *. clearbody W. clear T Hn n.
  set (q := W / d). assert (Q1 : q * d <= W) by (unfold q; rewrite Z.mul_comm; apply Z.mul_div_le; exact Hd). assert (Q2 : W < (q + 1) * d) by (unfold q; rewrite Z.mul_comm; apply Z.mul_succ_div_gt; exact Hd).
  assert (Q3 : 2 ^ 52 <= q) by (apply Z.div_le_lower_bound; [exact Hd|rewrite Z.mul_comm; exact Hlow]). clearbody q. clear Hlow.
  assert (Qp : 0 < q) by (apply Z.lt_le_trans with (2 ^ 52); [reflexivity|exact Q3]). destruct (Z.log2_spec q Qp) as [L1 L2]. assert (L3 : 52 <= Z.log2 q) by (apply Z.log2_le_pow2; assumption). set (L := Z.log2 q) in *. clearbody L.
  set (j := L - 52). assert (Pj : 0 < 2 ^ j) by (apply pow_pos; unfold j; lia). set (m := q / 2 ^ j). assert (M1 : m * 2 ^ j <= q) by (unfold m; rewrite Z.mul_comm; apply Z.mul_div_le; exact Pj). assert (M2 : q < (m + 1) * 2 ^ j) by (unfold m; rewrite Z.mul_comm; apply Z.mul_succ_div_gt; exact Pj).
  assert (M3 : 2 ^ 52 <= m < 2 ^ 53).
  { unfold m. split; [apply Z.div_le_lower_bound; [exact Pj|]|apply Z.div_lt_upper_bound; [exact Pj|]]; rewrite <- Z.pow_add_r by (unfold j; lia); [replace (j + 52) with L by (unfold j; lia)|replace (j + 53) with (Z.succ L) by (unfold j; lia)]; assumption. }
  clearbody m.
  assert (W1 : m * 2 ^ j * d <= W). { apply Z.le_trans with (q * d); [apply Z.mul_le_mono_nonneg_r; lia|exact Q1]. }
  assert (W2 : W < (m + 1) * 2 ^ j * d). { apply Z.lt_le_trans with ((q + 1) * d); [exact Q2|]. apply Z.mul_le_mono_nonneg_r; lia. }
  assert (Hm : 0 < m) by (change (2 ^ 52) with 4503599627370496 in M3; lia). clear Q1 Q2 Q3 L1 L2 M1 M2 Qp.
  assert (J : j <= 2045).
  { apply Z.le_ngt. intros J. apply T'. apply Z.le_trans with (m * 2 ^ j * d); [|exact W1]. rewrite Z.mul_assoc. apply Z.mul_le_mono_nonneg_r; [lia|].
    apply Z.le_trans with (2 ^ 52 * 2 ^ 2046); [|apply Z.mul_le_mono_nonneg; [discriminate|apply M3|apply Z.lt_le_incl, pow_pos; discriminate|apply Z.pow_le_mono_r; lia]].
    rewrite <- Z.pow_add_r by discriminate. change (52 + 2046) with (54 + 2044). rewrite Z.pow_add_r by discriminate. apply Z.mul_le_mono_nonneg_r; [apply Z.lt_le_incl, pow_pos; discriminate|discriminate]. }
  assert (C : forall y, finite y -> 2 * 2 ^ 52 * Z.abs (units y * d - W) <= W -> Z.abs (units x * d - W) * 2 ^ 53 <= W).
  { intros y Fy Hy. destruct (N y Fy) as [C _]. change (2 ^ 53) with (2 * 2 ^ 52). set (a := Z.abs (units x * d - W)) in *. set (b := Z.abs (units y * d - W)) in *. clearbody a b. change (2 ^ 52) with 4503599627370496 in *. lia. }
  assert (Hj0 : 0 <= j <= 2045) by (unfold j in *; lia). destruct (float_at s m j M3 Hj0) as (y1 & F1 & _ & U1).
  destruct (between W d m (2 ^ j) (2 ^ 52) Hd (Z.lt_le_incl _ _ Pj) W1 W2 Hm (proj1 M3) ltac:(discriminate)) as [B|B].
  - apply (C y1 F1). rewrite U1. exact B.
  - destruct (Z.eq_dec (m + 1) (2 ^ 53)) as [Em|Em].
    + destruct (Z.eq_dec j 2045) as [->|Nj].
      * apply (C y1 F1). rewrite U1. assert (Em' : m = 2 ^ 53 - 1) by lia. subst m. clear - T' W1 Hd. change (2 ^ 2045) with (2 ^ Z.succ 2044) in *. rewrite Z.pow_succ_r in * by discriminate.
        assert (HV : 0 < 2 ^ 2044) by (apply pow_pos; discriminate). set (V := 2 ^ 2044) in *. clearbody V. assert (Hp : 0 < V * d) by (apply Z.mul_pos_pos; assumption).
        replace ((2 ^ 53 - 1) * (2 * V) * d) with ((2 ^ 53 - 1) * 2 * (V * d)) in * by ring. set (p := V * d) in *. clearbody p. change (2 ^ 53 - 1) with 9007199254740991 in *. change (2 ^ 54 - 1) with 18014398509481983 in *. change (2 ^ 52) with 4503599627370496. lia.
      * destruct (float_at s (2 ^ 52) (j + 1) ltac:(split; [reflexivity|reflexivity] || (split; discriminate || reflexivity)) ltac:(lia)) as (y2 & F2 & _ & U2). apply (C y2 F2).
        replace (units y2) with ((m + 1) * 2 ^ j); [exact B|]. rewrite U2, Em, Z.pow_add_r by lia. change (2 ^ 53) with (2 ^ 52 * 2). change (2 ^ 1) with 2. ring.
    + destruct (float_at s (m + 1) j ltac:(lia) Hj0) as (y2 & F2 & _ & U2). apply (C y2 F2). rewrite U2. exact B.
Qed.

(** ** sampling: a value is multiplied by the reciprocal of its rate *)
Lemma exponent_low s k f B : f_ok (S754_finite s k f) -> 2 ^ B <= units (S754_finite s k f) -> 53 <= B -> B - 53 < f + 1074.
Proof.
  intros F H HB. destruct (valid_parts _ _ _ F) as [Hk Hf]. cbn [units] in H. assert (P : 0 < 2 ^ (f + 1074)) by (apply pow_pos; lia).
  assert (X : 2 ^ B < 2 ^ 53 * 2 ^ (f + 1074)). { eapply Z.le_lt_trans; [exact H|]. apply Z.mul_lt_mono_pos_r; assumption. }
  rewrite <- Z.pow_add_r in X by lia. apply Z.pow_lt_mono_r_iff in X; lia.
Qed.
Lemma chain a x b y c z d w : 0 <= a * x -> 0 <= c * z -> a * x <= b * y -> c * z <= d * w -> (a * c) * (x * z) <= (b * d) * (y * w).
Proof. intros H1 H2 H3 H4. replace (a * c * (x * z)) with ((a * x) * (c * z)) by ring. replace (b * d * (y * w)) with ((b * y) * (d * w)) by ring. apply Z.mul_le_mono_nonneg; assumption. Qed.
Lemma cancel a b c : 0 < c -> a * c <= b * c -> a <= b.
Proof. intros H. apply Z.mul_le_mono_pos_r. exact H. Qed.
(** four roundings, each by one part in [K] *)
Lemma four_roundings K U A B C D V R I X : 9 <= K -> 0 < U -> 0 < A -> 0 < B -> 0 < C -> 0 < D -> 0 < V -> 0 < R -> 0 < I -> 0 <= X ->
  Z.abs (V * B - A * U) * K <= A * U -> Z.abs (R * D - C * U) * K <= C * U -> Z.abs (I * R - U * U) * K <= U * U -> Z.abs (X * U - V * I) * K <= V * I ->
  Z.abs (X * (B * C) - A * D * U) * K <= 8 * (A * D * U).
Proof.
  intros HK HU HA HB HC HD HV HR HI HX E1 E2 E3 E4.
  assert (S : forall a b, Z.abs (a - b) * K <= b -> (K - 1) * b <= K * a /\ K * a <= (K + 1) * b) by (clear - HK; intros a b H; destruct (Z.abs_spec (a - b)) as [[? E]|[? E]]; rewrite E in H; nia).
  apply S in E1 as [L1 H1]. apply S in E2 as [L2 H2]. apply S in E3 as [L3 H3]. apply S in E4 as [L4 H4]. clear S.
  assert (PU : forall a b, 0 < a -> 0 < b -> 0 <= a * b) by (intros; apply Z.lt_le_incl, Z.mul_pos_pos; assumption).
  assert (PK : 0 < K - 1) by lia.
  assert (N1 : 0 <= K * (V * B)) by (apply PU; [lia|apply Z.mul_pos_pos; assumption]). assert (N1' : 0 <= (K - 1) * (A * U)) by (apply PU; [lia|apply Z.mul_pos_pos; assumption]).
  (* upper: I C *)
  assert (U1 : (K - 1) * (I * C) <= (K + 1) * (U * D)).
  { apply (cancel _ _ (K * U)); [apply Z.mul_pos_pos; lia|]. pose proof (chain (K - 1) (C * U) K (R * D) K (I * R) (K + 1) (U * U)) as H. 
    assert (X1 : (K - 1) * K * (C * U * (I * R)) <= K * (K + 1) * (R * D * (U * U))) by (apply H; [apply PU; [lia|apply Z.mul_pos_pos; assumption]|apply PU; [lia|apply Z.mul_pos_pos; assumption]|assumption|assumption]).
    apply (cancel _ _ R HR). replace ((K - 1) * (I * C) * (K * U) * R) with ((K - 1) * K * (C * U * (I * R))) by ring. replace ((K + 1) * (U * D) * (K * U) * R) with (K * (K + 1) * (R * D * (U * U))) by ring. exact X1. }
  assert (D1 : (K - 1) * (U * D) <= (K + 1) * (I * C)).
  { apply (cancel _ _ (K * U)); [apply Z.mul_pos_pos; lia|]. pose proof (chain K (R * D) (K + 1) (C * U) (K - 1) (U * U) K (I * R)) as H.
    assert (X1 : K * (K - 1) * (R * D * (U * U)) <= (K + 1) * K * (C * U * (I * R))) by (apply H; [apply PU; [lia|apply Z.mul_pos_pos; assumption]|apply PU; [lia|apply Z.mul_pos_pos; assumption]|assumption|assumption]).
    apply (cancel _ _ R HR). replace ((K - 1) * (U * D) * (K * U) * R) with (K * (K - 1) * (R * D * (U * U))) by ring. replace ((K + 1) * (I * C) * (K * U) * R) with ((K + 1) * K * (C * U * (I * R))) by ring. exact X1. }
  assert (N2 : 0 <= (K - 1) * (I * C)) by (apply PU; [lia|apply Z.mul_pos_pos; assumption]). assert (N2' : 0 <= (K - 1) * (U * D)) by (apply PU; [lia|apply Z.mul_pos_pos; assumption]).
  pose proof (chain _ _ _ _ _ _ _ _ N1 N2 H1 U1) as U2. pose proof (chain _ _ _ _ _ _ _ _ N1' N2' L1 D1) as D2.
  assert (N3 : 0 <= K * (K - 1) * (V * B * (I * C))) by (apply PU; [apply Z.mul_pos_pos; lia|repeat apply Z.mul_pos_pos; assumption]).
  assert (N3' : 0 <= (K - 1) * (K - 1) * (A * U * (U * D))) by (apply PU; [apply Z.mul_pos_pos; lia|repeat apply Z.mul_pos_pos; assumption]).
  assert (N4 : 0 <= K * (X * U)) by (apply Z.mul_nonneg_nonneg; [lia|apply Z.mul_nonneg_nonneg; lia]). assert (N4' : 0 <= (K - 1) * (V * I)) by (apply PU; [lia|apply Z.mul_pos_pos; assumption]).
  pose proof (chain _ _ _ _ _ _ _ _ N4 N3 H4 U2) as U3. pose proof (chain _ _ _ _ _ _ _ _ N4' N3' L4 D2) as D3.
  set (Y := X * (B * C)) in *. set (Z0 := A * D * U) in *. assert (HZ : 0 < Z0) by (unfold Z0; repeat apply Z.mul_pos_pos; assumption).
  assert (PUVI : 0 < U * V * I) by (repeat apply Z.mul_pos_pos; assumption).
  assert (U4 : K * (K * (K - 1)) * Y <= (K + 1) * ((K + 1) * (K + 1)) * Z0).
  { apply (cancel _ _ (U * V * I)); [exact PUVI|]. unfold Y, Z0. match type of U3 with ?a <= ?b => replace (K * (K * (K - 1)) * (X * (B * C)) * (U * V * I)) with a by ring; replace ((K + 1) * ((K + 1) * (K + 1)) * (A * D * U) * (U * V * I)) with b by ring end. exact U3. }
  assert (D4 : (K - 1) * ((K - 1) * (K - 1)) * Z0 <= K * (K * (K + 1)) * Y).
  { apply (cancel _ _ (U * V * I)); [exact PUVI|]. unfold Y, Z0. match type of D3 with ?a <= ?b => replace ((K - 1) * ((K - 1) * (K - 1)) * (A * D * U) * (U * V * I)) with a by ring; replace (K * (K * (K + 1)) * (X * (B * C)) * (U * V * I)) with b by ring end. exact D3. }
  clear - U4 D4 HK HZ HX HB HC. assert (HY : 0 <= Y) by (unfold Y; apply Z.mul_nonneg_nonneg; [assumption|apply Z.mul_nonneg_nonneg; lia]). clearbody Y Z0.
  assert (UP : K * Y <= (K + 8) * Z0).
  { apply (cancel _ _ (K * (K - 1))); [nia|]. replace (K * Y * (K * (K - 1))) with (K * (K * (K - 1)) * Y) by ring. eapply Z.le_trans; [exact U4|]. replace ((K + 8) * Z0 * (K * (K - 1))) with ((K + 8) * (K * (K - 1)) * Z0) by ring. apply Z.mul_le_mono_nonneg_r; [lia|]. nia. }
  assert (LO : (K - 8) * Z0 <= K * Y).
  { apply (cancel _ _ (K * (K + 1))); [nia|]. replace (K * Y * (K * (K + 1))) with (K * (K * (K + 1)) * Y) by ring. eapply Z.le_trans; [|exact D4]. replace ((K - 8) * Z0 * (K * (K + 1))) with ((K - 8) * (K * (K + 1)) * Z0) by ring. apply Z.mul_le_mono_nonneg_r; [lia|]. nia. }
  nia.
Qed.
(** a fraction that is neither very large nor very small is read with small error *)
Definition tens : Z := 10 ^ 100.
Lemma read_close neg A B v : 0 < A -> 0 < B -> B <= A * tens -> A <= B * tens -> nearest neg A B v ->
  finite v /\ minus v = neg /\ Z.abs (units v * B - A * 2 ^ 1074) * 2 ^ 53 <= A * 2 ^ 1074 /\ 2 ^ 740 <= units v <= 2 ^ 1408.
Proof.
  intros HA HB L H N. assert (T0 : 0 < tens) by reflexivity.
  assert (T : ~ too_large A B).
  { unfold too_large. intros X. assert (X1 : (2 ^ 54 - 1) * 2 ^ 970 * B <= tens * B) by (eapply Z.le_trans; [exact X|rewrite Z.mul_comm; exact H]). apply (cancel _ _ _ HB) in X1. apply Z.leb_le in X1. vm_compute in X1. discriminate X1. }
  assert (Lo : 2 ^ 52 * B <= A * 2 ^ 1074).
  { apply Z.le_trans with (2 ^ 52 * (A * tens)); [apply Z.mul_le_mono_nonneg_l; [discriminate|exact L]|]. replace (2 ^ 52 * (A * tens)) with (A * (2 ^ 52 * tens)) by ring. apply Z.mul_le_mono_nonneg_l; [lia|]. apply Z.leb_le. vm_compute. reflexivity. }
  pose proof (nearest_close neg A B v HA HB Lo T N) as C. destruct N as [_ N]. destruct (N T) as (F & M & _). clear N Lo T. split; [exact F|]. split; [exact M|]. unfold off in C. split; [exact C|].
  set (U := 2 ^ 1074) in *. assert (HU : 0 < U) by (apply pow_pos; discriminate). set (V := units v) in *. clearbody V.
  assert (C' : A * U <= 2 * (V * B) /\ V * B <= 2 * (A * U)).
  { clear - C HA HB HU. assert (0 < A * U) by (apply Z.mul_pos_pos; assumption). set (a := A * U) in *. set (b := V * B) in *. clearbody a b. change (2 ^ 53) with 9007199254740992 in C. lia. }
  destruct C' as [C1 C2]. split.
  - assert (G : U <= V * (2 * tens)).
    { apply (cancel _ _ A HA). rewrite Z.mul_comm. eapply Z.le_trans; [exact C1|]. assert (HV : 0 <= V) by (clear - C1 HA HB HU; assert (0 < A * U) by (apply Z.mul_pos_pos; assumption); nia). replace (V * (2 * tens) * A) with (2 * (V * (A * tens))) by ring. apply Z.mul_le_mono_nonneg_l; [discriminate|]. apply Z.mul_le_mono_nonneg_l; assumption. }
    apply (cancel _ _ (2 * tens)); [reflexivity|]. eapply Z.le_trans; [|exact G]. apply Z.leb_le. vm_compute. reflexivity.
  - assert (G : V <= 2 * tens * U).
    { apply (cancel _ _ B HB). eapply Z.le_trans; [exact C2|]. replace (2 * tens * U * B) with (2 * (B * tens * U)) by ring. apply Z.mul_le_mono_nonneg_l; [discriminate|]. apply Z.mul_le_mono_nonneg_r; [lia|exact H]. }
    eapply Z.le_trans; [exact G|]. apply Z.leb_le. vm_compute. reflexivity.
Qed.
Lemma positive_finite x : finite x -> 0 < units x -> exists k f, x = S754_finite (minus x) k f /\ f_ok x.
Proof. intros F P. destruct x as [s|s| |s k f]; try (cbn in P; discriminate P). exists k, f. split; [reflexivity|exact F]. Qed.
Theorem sampled_close neg A B v neg' C D r : 0 < A -> 0 < B -> B <= A * tens -> A <= B * tens -> nearest neg A B v ->
  0 < C -> 0 < D -> D <= C * tens -> C <= D * tens -> nearest neg' C D r ->
  let x := fmul v (fdiv fone r) in finite x /\ minus x = xorb neg neg' /\ off (A * D) (B * C) x * 2 ^ 50 <= A * D * 2 ^ 1074.
Proof.
  intros HA HB L1 H1 N1 HC HD L2 H2 N2 x. unfold x. clear x.
  destruct (read_close _ _ _ _ HA HB L1 H1 N1) as (Fv & Mv & Ev & Vl & Vh). destruct (read_close _ _ _ _ HC HD L2 H2 N2) as (Fr & Mr & Er & Rl & Rh). clear L1 H1 N1 L2 H2 N2.
  assert (Pv : 0 < units v) by (eapply Z.lt_le_trans; [|exact Vl]; apply pow_pos; discriminate). assert (Pr : 0 < units r) by (eapply Z.lt_le_trans; [|exact Rl]; apply pow_pos; discriminate).
  pose proof (frecip_nearest r Fr Pr) as Ni. assert (HU : 0 < 2 ^ 1074) by (apply pow_pos; discriminate).
  assert (Ti : ~ too_large (2 ^ 1074) (units r)).
  { unfold too_large. intros X. assert (X1 : (2 ^ 54 - 1) * 2 ^ 970 * 2 ^ 740 <= 2 ^ 1074) by (eapply Z.le_trans; [|exact X]; apply Z.mul_le_mono_nonneg_l; [apply Z.mul_nonneg_nonneg; [discriminate|apply Z.lt_le_incl, pow_pos; discriminate]|exact Rl]). apply Z.leb_le in X1. vm_compute in X1. discriminate X1. }
  assert (Li : 2 ^ 52 * units r <= 2 ^ 1074 * 2 ^ 1074).
  { apply Z.le_trans with (2 ^ 52 * 2 ^ 1408); [apply Z.mul_le_mono_nonneg_l; [discriminate|exact Rh]|]. apply Z.leb_le. vm_compute. reflexivity. }
  pose proof (nearest_close _ _ _ _ HU Pr Li Ti Ni) as Ei. destruct Ni as [_ Ni]. destruct (Ni Ti) as (Fi & Mi & _). clear Ni Ti Li. unfold off in Ei. set (i := fdiv fone r) in *. clearbody i.
  assert (Bi : 2 ^ 739 <= units i <= 2 ^ 1409).
  { assert (C' : 2 ^ 1074 * 2 ^ 1074 <= 2 * (units i * units r) /\ units i * units r <= 2 * (2 ^ 1074 * 2 ^ 1074)).
    { clear - Ei HU. assert (0 < 2 ^ 1074 * 2 ^ 1074) by (apply Z.mul_pos_pos; assumption). set (a := 2 ^ 1074 * 2 ^ 1074) in *. set (b := units i * units r) in *. clearbody a b. change (2 ^ 53) with 9007199254740992 in Ei. lia. }
    destruct C' as [C1 C2]. pose proof (units_nonneg i Fi) as Hi. set (I := units i) in *. set (R := units r) in *. clearbody I R. clear - C1 C2 Rl Rh Hi Pr. split.
    - apply (cancel _ _ (2 * 2 ^ 1408)); [apply Z.mul_pos_pos; [reflexivity|apply pow_pos; discriminate]|]. apply Z.le_trans with (2 ^ 1074 * 2 ^ 1074); [apply Z.leb_le; vm_compute; reflexivity|]. eapply Z.le_trans; [exact C1|]. replace (I * (2 * 2 ^ 1408)) with (2 * (I * 2 ^ 1408)) by ring. apply Z.mul_le_mono_nonneg_l; [discriminate|]. apply Z.mul_le_mono_nonneg_l; assumption.
    - apply (cancel _ _ (2 ^ 740)); [apply pow_pos; discriminate|]. apply Z.le_trans with (I * R); [apply Z.mul_le_mono_nonneg_l; assumption|]. eapply Z.le_trans; [exact C2|]. apply Z.leb_le; vm_compute; reflexivity. }
  destruct Bi as [Il Ih]. assert (Pi : 0 < units i) by (eapply Z.lt_le_trans; [|exact Il]; apply pow_pos; discriminate).
  destruct (positive_finite v Fv Pv) as (k & f & Xv & Ov). destruct (positive_finite i Fi Pi) as (k' & f' & Xi & Oi).
  assert (Nx : nearest (xorb neg neg') (units v * units i) (2 ^ 1074 * 2 ^ 1074) (fmul v i)).
  { rewrite <- Mv, <- Mr, <- Mi. rewrite Xv in Vl, Ov. rewrite Xi in Il, Oi. pose proof (exponent_low _ _ _ 740 Ov Vl ltac:(discriminate)) as E1. pose proof (exponent_low _ _ _ 739 Oi Il ltac:(discriminate)) as E2.
    assert (E3 : -1074 <= f + f') by (clear - E1 E2; lia). pose proof (fmul_nearest _ _ _ _ _ _ Ov Oi E3) as N. rewrite <- Xv, <- Xi in N. exact N. }
  assert (HUU : 0 < 2 ^ 1074 * 2 ^ 1074) by (apply Z.mul_pos_pos; assumption). assert (HVI : 0 < units v * units i) by (apply Z.mul_pos_pos; assumption).
  assert (Tx : ~ too_large (units v * units i) (2 ^ 1074 * 2 ^ 1074)).
  { unfold too_large. intros X. assert (X1 : units v * units i <= 2 ^ 1408 * 2 ^ 1409) by (apply Z.mul_le_mono_nonneg; try assumption; apply Z.lt_le_incl; assumption). pose proof (Z.le_trans _ _ _ X X1) as X2. apply Z.leb_le in X2. vm_compute in X2. discriminate X2. }
  assert (Lx : 2 ^ 52 * (2 ^ 1074 * 2 ^ 1074) <= units v * units i * 2 ^ 1074).
  { replace (2 ^ 52 * (2 ^ 1074 * 2 ^ 1074)) with (2 ^ 52 * 2 ^ 1074 * 2 ^ 1074) by (rewrite <- Z.mul_assoc; reflexivity). apply Z.mul_le_mono_nonneg_r; [apply Z.lt_le_incl; exact HU|]. apply Z.le_trans with (2 ^ 740 * 2 ^ 739); [apply Z.leb_le; vm_compute; reflexivity|]. apply Z.mul_le_mono_nonneg; try assumption; apply Z.lt_le_incl, pow_pos; discriminate. }
  pose proof (nearest_close _ _ _ _ HVI HUU Lx Tx Nx) as Ex. destruct Nx as [_ Nx]. destruct (Nx Tx) as (Fx & Mx & _). split; [exact Fx|]. split; [exact Mx|]. clear Nx Tx Lx. unfold off in Ex |- *.
  pose proof (units_nonneg _ Fx) as Hx. set (X := units (fmul v i)) in *. set (V := units v) in *. set (I := units i) in *. set (R := units r) in *. set (U := 2 ^ 1074) in *.
  assert (E4 : Z.abs (X * U - V * I) * 2 ^ 53 <= V * I).
  { apply (cancel _ _ U HU). eapply Z.le_trans; [|exact Ex]. replace (X * (U * U) - V * I * U) with ((X * U - V * I) * U) by ring. rewrite Z.abs_mul, (Z.abs_eq U) by (apply Z.lt_le_incl; exact HU). apply Z.eq_le_incl. ring. }
  pose proof (four_roundings (2 ^ 53) U A B C D V R I X ltac:(discriminate) HU HA HB HC HD Pv Pr Pi Hx Ev Er Ei E4) as G. change (2 ^ 53) with (2 ^ 50 * 8) in G. set (a := Z.abs (X * (B * C) - A * D * U)) in *. set (b := A * D * U) in *.
  clear - G. clearbody a b. set (p := 2 ^ 50) in *. clearbody p. nia.
Qed.
(** nothing is nothing, sampled or not *)
Lemma sampled_zero neg B v neg' C D r : 0 < B -> nearest neg 0 B v -> 0 < C -> 0 < D -> D <= C * tens -> C <= D * tens -> nearest neg' C D r -> fmul v (fdiv fone r) = S754_zero (xorb neg neg').
Proof.
  intros HB N1 HC HD L2 H2 N2. destruct (read_close _ _ _ _ HC HD L2 H2 N2) as (Fr & Mr & _ & Rl & Rh).
  assert (Pr : 0 < units r) by (eapply Z.lt_le_trans; [|exact Rl]; apply pow_pos; discriminate). pose proof (frecip_nearest r Fr Pr) as [_ Ni].
  assert (Ti : ~ too_large (2 ^ 1074) (units r)).
  { unfold too_large. intros X. assert (X1 : (2 ^ 54 - 1) * 2 ^ 970 * 2 ^ 740 <= 2 ^ 1074) by (eapply Z.le_trans; [|exact X]; apply Z.mul_le_mono_nonneg_l; [apply Z.mul_nonneg_nonneg; [discriminate|apply Z.lt_le_incl, pow_pos; discriminate]|exact Rl]). apply Z.leb_le in X1. vm_compute in X1. discriminate X1. }
  destruct (Ni Ti) as (Fi & Mi & _). rewrite <- Mr, <- Mi.
  assert (T : ~ too_large 0 B). { unfold too_large. intros X. apply Z.le_ngt in X. apply X. apply Z.mul_pos_pos; [apply Z.mul_pos_pos; [reflexivity|apply pow_pos; discriminate]|exact HB]. }
  destruct N1 as [_ N1]. destruct (N1 T) as (Fv & Mv & N). destruct (N (S754_zero false) eq_refl) as [E _]. unfold off in E. cbn [units] in E. rewrite !Z.mul_0_l, !Z.sub_0_r in E. change (Z.abs 0) with 0 in E.
  assert (U0 : units v = 0) by (pose proof (units_nonneg v Fv) as P; clear - P E HB; nia). destruct v as [s|s| |s k f]; try contradiction.
  - cbn [minus] in Mv. subst s. set (i := fdiv fone r) in *. clearbody i. destruct i as [s|s| |s k f]; try contradiction; reflexivity.
  - exfalso. pose proof (finite_units _ _ _ Fv). rewrite U0 in H. discriminate H.
Qed.
(** whole numbers are multiplied exactly while there is room *)
Theorem fmul_whole a b : Z.abs a <= 2 ^ 53 -> Z.abs b <= 2 ^ 53 -> a * b <> 0 -> Z.abs (a * b) <= 2 ^ 53 -> fmul (fofZ a) (fofZ b) = fofZ (a * b).
Proof.
  intros Ha Hb N Hab. destruct (fofZ_exact a Ha) as [Fa Ua]. destruct (fofZ_exact b Hb) as [Fb Ub].
  assert (HU : 0 < 2 ^ 1074) by (apply pow_pos; discriminate).
  assert (S : forall z, z <> 0 -> finite (fofZ z) -> sunits (fofZ z) = z * 2 ^ 1074 -> units (fofZ z) = Z.abs z * 2 ^ 1074 /\ minus (fofZ z) = (z <? 0)).
  { clear - HU. intros z Nz F E. pose proof (units_nonneg _ F) as P. unfold sunits in E. set (U := 2 ^ 1074) in *. clearbody U. destruct (minus (fofZ z)).
    - assert (z < 0) by nia. split; [|symmetry; apply Z.ltb_lt; assumption]. rewrite Z.abs_neq by lia. lia.
    - assert (0 < z) by nia. split; [|symmetry; apply Z.ltb_ge; lia]. rewrite Z.abs_eq by lia. exact E. }
  assert (Na : a <> 0) by (intros ->; apply N; reflexivity). assert (Nb : b <> 0) by (intros ->; apply N; apply Z.mul_0_r).
  destruct (S a Na Fa Ua) as [Ea Ma]. destruct (S b Nb Fb Ub) as [Eb Mb]. clear S Ua Ub.
  assert (Lo : forall z, z <> 0 -> 2 ^ 1074 <= Z.abs z * 2 ^ 1074) by (clear - HU; intros z Nz; set (U := 2 ^ 1074) in *; clearbody U; nia).
  assert (Pa : 0 < units (fofZ a)) by (rewrite Ea; eapply Z.lt_le_trans; [exact HU|apply Lo; exact Na]). assert (Pb : 0 < units (fofZ b)) by (rewrite Eb; eapply Z.lt_le_trans; [exact HU|apply Lo; exact Nb]).
  destruct (positive_finite _ Fa Pa) as (k & f & Xa & Oa). destruct (positive_finite _ Fb Pb) as (k' & f' & Xb & Ob).
  assert (La : 2 ^ 1074 <= units (fofZ a)) by (rewrite Ea; apply Lo; exact Na). assert (Lb : 2 ^ 1074 <= units (fofZ b)) by (rewrite Eb; apply Lo; exact Nb).
  assert (Nx : nearest (xorb (a <? 0) (b <? 0)) (Z.abs a * 2 ^ 1074 * (Z.abs b * 2 ^ 1074)) (2 ^ 1074 * 2 ^ 1074) (fmul (fofZ a) (fofZ b))).
  { rewrite <- Ma, <- Mb, <- Ea, <- Eb. rewrite Xa in La, Oa. rewrite Xb in Lb, Ob. pose proof (exponent_low _ _ _ 1074 Oa La ltac:(discriminate)) as E1. pose proof (exponent_low _ _ _ 1074 Ob Lb ltac:(discriminate)) as E2.
    assert (E3 : -1074 <= f + f') by (clear - E1 E2; lia). pose proof (fmul_nearest _ _ _ _ _ _ Oa Ob E3) as X. rewrite <- Xa, <- Xb in X. exact X. }
  assert (Ns : nearest (a * b <? 0) (Z.abs (a * b)) 1 (fmul (fofZ a) (fofZ b))).
  { replace (a * b <? 0) with (xorb (a <? 0) (b <? 0)) by (clear - Na Nb; destruct (Z.ltb_spec a 0), (Z.ltb_spec b 0); cbn [xorb]; symmetry; (apply Z.ltb_lt || apply Z.ltb_ge); nia).
    apply (proj1 (nearest_scale _ (Z.abs (a * b)) 1 (2 ^ 1074 * 2 ^ 1074) _ Logic.eq_refl (Z.mul_pos_pos _ _ HU HU))). rewrite Z.abs_mul, Z.mul_1_l, Z.mul_shuffle1. exact Nx. }
  eapply nearest_unique; [|exact Ns|apply fofZ_nearest; exact N]. reflexivity.
Qed.
