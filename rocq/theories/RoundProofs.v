From Verif Require Import Base FloatFacts RoundSpec NumberModel.
Open Scope Z_scope.

(** [W] lies where the record says: in units [P], between [m] and [m + 1] *)
Definition lies (mrs : shr_record) (P W : Z) : Prop :=
  let m := shr_m mrs in
  match loc_of_shr_record mrs with
  | loc_Exact => W = m * P
  | loc_Inexact Lt => m * P < W /\ 2 * W < (2 * m + 1) * P
  | loc_Inexact Eq => 2 * W = (2 * m + 1) * P
  | loc_Inexact Gt => (2 * m + 1) * P < 2 * W /\ W < (m + 1) * P
  end.
Lemma lies_shr_1 mrs P W : 0 <= shr_m mrs -> 0 < P -> lies mrs P W -> lies (shr_1 mrs) (2 * P) W.
Proof.
  unfold lies. destruct mrs as [[|[p|p|]|p] [|] [|]]; cbn [shr_m shr_1 loc_of_shr_record orb]; intros H0 HP L; try lia;
  rewrite ?Pos2Z.inj_xI, ?Pos2Z.inj_xO in L; nia.
Qed.
Lemma lies_shr n mrs P W : 0 <= shr_m mrs -> 0 < P -> lies mrs P W -> lies (Nat.iter n shr_1 mrs) (2 ^ Z.of_nat n * P) W.
Proof.
  intros H0 HP L. induction n as [|n IH]; [rewrite Z.pow_0_r, Z.mul_1_l; exact L|]. rewrite iter_S, Nat2Z.inj_succ, Z.pow_succ_r, <- Z.mul_assoc by lia.
  assert (0 < 2 ^ Z.of_nat n) by (apply Z.pow_pos_nonneg; lia). apply lies_shr_1; [|nia|exact IH]. rewrite shr_iter by assumption. apply Z.div_pos; lia.
Qed.
Lemma digitsZ m : 0 < m -> 0 < Zdigits2 m /\ 2 ^ (Zdigits2 m - 1) <= m < 2 ^ Zdigits2 m.
Proof. destruct m as [|p|p]; try lia. intros _. cbn [Zdigits2]. split; [lia|apply digits_bounds]. Qed.
Definition fx (z : Z) : Z := Z.max (z - 53) (-1074).
Lemma fexp_fx z : fexp fprec femax z = fx z.
Proof. unfold fexp, emin, fprec, femax, fx. lia. Qed.
(** the first shift: at most 53 bits, 53 of them or the least exponent *)
Lemma shift_first m e l P W : 0 <= m -> -1074 <= e + Zdigits2 m \/ e = -1074 -> e <= fx (Zdigits2 m + e) -> 0 < P -> lies (shr_record_of_loc m l) P W ->
  exists mrs e1, shr_fexp fprec femax m e l = (mrs, e1) /\ e <= e1 /\ lies mrs (2 ^ (e1 - e) * P) W /\ 0 <= shr_m mrs < 2 ^ 53 /\ -1074 <= e1 /\ (e1 = -1074 \/ 2 ^ 52 <= shr_m mrs).
Proof.
  intros Hm He Hf HP L. assert (Em : shr_m (shr_record_of_loc m l) = m) by (destruct l as [|[]]; reflexivity).
  unfold shr_fexp. rewrite fexp_fx. set (n := fx (Zdigits2 m + e) - e). assert (Hn : 0 <= n) by (subst n; lia).
  assert (E : shr (shr_record_of_loc m l) e n = (Nat.iter (Z.to_nat n) shr_1 (shr_record_of_loc m l), e + n)).
  { destruct n as [|p|p]; [rewrite Z.add_0_r; reflexivity| |lia]. cbn [shr]. rewrite iter_pos_nat. reflexivity. }
  rewrite E. do 2 eexists. split; [reflexivity|]. split; [lia|]. split.
  { replace (e + n - e) with (Z.of_nat (Z.to_nat n)) by lia. apply lies_shr; [rewrite Em; assumption|assumption|assumption]. }
  rewrite shr_iter by (rewrite Em; assumption). rewrite Em, Z2Nat.id by assumption.
  assert (Pn : 0 < 2 ^ n) by (apply Z.pow_pos_nonneg; lia). assert (E1 : e + n = fx (Zdigits2 m + e)) by (subst n; lia). rewrite E1. split; [|split; [unfold fx; lia|]].
  - split; [apply Z.div_pos; lia|]. destruct (Z.eq_dec m 0) as [->|Hz]; [rewrite Z.div_0_l by lia; reflexivity|]. destruct (digitsZ m ltac:(lia)) as [D0 D]. set (k := Zdigits2 m) in *.
    apply Z.div_lt_upper_bound; [lia|]. rewrite <- Z.pow_add_r by lia. apply Z.lt_le_trans with (2 ^ k); [lia|]. apply Z.pow_le_mono_r; unfold fx in *; lia.
  - destruct (Z.eq_dec (fx (Zdigits2 m + e)) (-1074)) as [|Hne]; [left; assumption|right]. destruct (Z.eq_dec m 0) as [->|Hz]; [exfalso; cbn in *; unfold fx in *; lia|].
    destruct (digitsZ m ltac:(lia)) as [D0 D]. set (k := Zdigits2 m) in *. apply Z.div_le_lower_bound; [lia|]. rewrite <- Z.pow_add_r by lia.
    apply Z.le_trans with (2 ^ (k - 1)); [|lia]. apply Z.pow_le_mono_r; unfold fx in *; lia.
Qed.
(** the second: nothing, or the carry *)
Lemma shift_second r e1 : 0 <= r <= 2 ^ 53 -> -1074 <= e1 -> (e1 = -1074 \/ 2 ^ 52 <= r) ->
  exists mrs e2, shr_fexp fprec femax r e1 loc_Exact = (mrs, e2) /\ 0 <= shr_m mrs < 2 ^ 53 /\ (e1 = -1074 /\ e2 = e1 \/ 2 ^ 52 <= shr_m mrs) /\
    (r < 2 ^ 53 /\ shr_m mrs = r /\ e2 = e1 \/ r = 2 ^ 53 /\ shr_m mrs = 2 ^ 52 /\ e2 = e1 + 1).
Proof.
  intros Hr He Hc. unfold shr_fexp. rewrite fexp_fx. cbn [shr_record_of_loc].
  destruct (Z.eq_dec r (2 ^ 53)) as [->|Hne].
  - change (Zdigits2 (2 ^ 53)) with 54. replace (fx (54 + e1) - e1) with 1 by (unfold fx; lia). do 2 eexists. split; [reflexivity|]. vm_compute shr_m. split; [lia|]. split; [right; lia|]. right. lia.
  - assert (H : fx (Zdigits2 r + e1) <= e1).
    { destruct (Z.eq_dec r 0) as [->|Hz]; [cbn; unfold fx; lia|]. destruct (digitsZ r ltac:(lia)) as [D0 D]. set (k := Zdigits2 r) in *.
      assert (k <= 53). { destruct (Z_le_gt_dec k 53); [assumption|]. assert (2 ^ 53 <= 2 ^ (k - 1)) by (apply Z.pow_le_mono_r; lia). lia. } unfold fx. lia. }
    assert (E : shr {| shr_m := r; shr_r := false; shr_s := false |} e1 (fx (Zdigits2 r + e1) - e1) = ({| shr_m := r; shr_r := false; shr_s := false |}, e1)).
    { destruct (fx (Zdigits2 r + e1) - e1) eqn:Z0; [reflexivity|lia|reflexivity]. }
    rewrite E. do 2 eexists. split; [reflexivity|]. cbn [shr_m]. split; [lia|]. split; [lia|left; lia].
Qed.
Lemma rne_spec mrs P W : 0 < P -> lies mrs P W -> let m := shr_m mrs in let r := round_nearest_even m (loc_of_shr_record mrs) in
  (r = m /\ m * P <= W /\ 2 * W <= (2 * m + 1) * P /\ (2 * W = (2 * m + 1) * P -> Z.even m = true)) \/
  (r = m + 1 /\ (2 * m + 1) * P <= 2 * W /\ W < (m + 1) * P /\ (2 * W = (2 * m + 1) * P -> Z.even (m + 1) = true)).
Proof.
  intros HP L. cbv zeta. unfold lies in L. destruct (loc_of_shr_record mrs) as [|[| |]]; cbn [round_nearest_even].
  - left. repeat split; nia.
  - destruct (Z.even (shr_m mrs)) eqn:E; [left; repeat split; auto; nia|]. right. repeat split; try nia. intros _. rewrite Z.even_add, E. reflexivity.
  - left. repeat split; nia.
  - right. repeat split; nia.
Qed.
Lemma valid_parts s k f : f_ok (S754_finite s k f) -> Z.pos k < 2 ^ 53 /\ -1074 <= f <= 971.
Proof.
  unfold f_ok. cbn [valid_binary]. unfold bounded, canonical_mantissa. intros H. apply andb_true_iff in H as [H1 H2]. apply Zeq_bool_eq in H1. rewrite fexp_fx in H1.
  apply Z.leb_le in H2. unfold femax, fprec in H2. pose proof (digits_bounds k) as B. set (d := Z.pos (digits2_pos k)) in *. split; [|unfold fx in *; lia].
  apply Z.lt_le_trans with (2 ^ d); [lia|]. apply Z.pow_le_mono_r; unfold fx in *; lia.
Qed.
Lemma valid_make s k f : Z.pos k < 2 ^ 53 -> -1074 <= f <= 971 -> (f = -1074 \/ 2 ^ 52 <= Z.pos k) -> f_ok (S754_finite s k f).
Proof.
  intros Hk Hf Hc. unfold f_ok. cbn [valid_binary]. unfold bounded, canonical_mantissa. rewrite fexp_fx. pose proof (digits_bounds k) as B. set (d := Z.pos (digits2_pos k)) in *. assert (0 < d) by (subst d; lia).
  assert (d <= 53). { destruct (Z_le_gt_dec d 53); [assumption|]. assert (2 ^ 53 <= 2 ^ (d - 1)) by (apply Z.pow_le_mono_r; lia). lia. }
  assert (52 < d \/ f = -1074). { destruct Hc as [|Hc]; [auto|]. left. destruct (Z_lt_le_dec 52 d); [assumption|]. assert (2 ^ d <= 2 ^ 52) by (apply Z.pow_le_mono_r; lia). lia. }
  apply andb_true_iff. split; [|unfold femax, fprec; lia]. replace (fx (d + f)) with f by (unfold fx; lia). apply Zeq_is_eq_bool. reflexivity.
Qed.
(** no float lies strictly between neighbours *)
Lemma no_between y m1 e1 : finite y -> -1074 <= e1 -> 0 <= m1 -> (e1 = -1074 \/ 2 ^ 52 <= m1) -> units y <= m1 * 2 ^ (e1 + 1074) \/ (m1 + 1) * 2 ^ (e1 + 1074) <= units y.
Proof.
  intros Hy He Hm Hc. assert (PA : 0 < 2 ^ (e1 + 1074)) by (apply Z.pow_pos_nonneg; lia). destruct y as [s|s| |s k f]; cbn [finite units] in *; try contradiction; [left; nia|].
  destruct (valid_parts _ _ _ Hy) as [Hk Hf]. destruct (Z_lt_le_dec f e1) as [L|L].
  - left. destruct Hc as [|Hc]; [lia|]. apply Z.le_trans with (2 ^ 52 * 2 ^ (e1 + 1074)); [|nia]. replace (e1 + 1074) with ((e1 - f - 1) + (1 + (f + 1074))) by lia. rewrite (Z.pow_add_r 2 (e1 - f - 1)), (Z.pow_add_r 2 1) by lia.
    assert (0 < 2 ^ (f + 1074)) by (apply Z.pow_pos_nonneg; lia). assert (0 < 2 ^ (e1 - f - 1)) by (apply Z.pow_pos_nonneg; lia). change (2 ^ 1) with 2. change (2 ^ 53) with (2 ^ 52 * 2) in Hk. nia.
  - replace (f + 1074) with ((f - e1) + (e1 + 1074)) by lia. rewrite Z.pow_add_r by lia. assert (0 < 2 ^ (f - e1)) by (apply Z.pow_pos_nonneg; lia).
    rewrite Z.mul_assoc. set (q := Z.pos k * 2 ^ (f - e1)). destruct (Z_le_gt_dec q m1); [left|right]; apply Z.mul_le_mono_nonneg_r; lia.
Qed.
Lemma near_enough uy m1 r A P d W (E : Prop) : 0 < P -> 0 < d -> P = A * d ->
  (r = m1 /\ m1 * P <= W /\ 2 * W <= (2 * m1 + 1) * P /\ (2 * W = (2 * m1 + 1) * P -> Z.even m1 = true)) \/
  (r = m1 + 1 /\ (2 * m1 + 1) * P <= 2 * W /\ W < (m1 + 1) * P /\ (2 * W = (2 * m1 + 1) * P -> Z.even (m1 + 1) = true)) ->
  (uy <= m1 * A /\ uy * d <= m1 * P) \/ ((m1 + 1) * A <= uy /\ (m1 + 1) * P <= uy * d) -> (Z.even r = true -> E) ->
  Z.abs (r * P - W) <= Z.abs (uy * d - W) /\ (Z.abs (uy * d - W) = Z.abs (r * P - W) -> uy <> r * A -> E).
Proof.
  intros HP Hd EP R NB F. replace ((2 * m1 + 1) * P) with (2 * (m1 * P) + P) in R by ring. replace ((m1 + 1) * P) with (m1 * P + P) in * by ring.
  assert (NV : uy <> r * A -> uy * d <> r * P). { intros Nu X. apply Nu. rewrite EP, Z.mul_assoc in X. apply Z.mul_cancel_r in X; lia. }
  destruct R as [(-> & R1 & R2 & R3)|(-> & R1 & R2 & R3)].
  - set (v := uy * d) in *. set (p := m1 * P) in *. clearbody v p. split; [lia|]. intros Eo Nu. specialize (NV Nu). apply F, R3. lia.
  - replace ((m1 + 1) * P) with (m1 * P + P) in * by ring. set (v := uy * d) in *. set (p := m1 * P) in *. clearbody v p. split; [lia|]. intros Eo Nu. specialize (NV Nu). apply F, R3. lia.
Qed.
(** [U] stands for 2^2044, [K] for the limit *)
Lemma round_core s m e l W d U : 0 <= m -> -1074 <= e -> 0 < d -> e <= fx (Zdigits2 m + e) -> lies (shr_record_of_loc m l) (2 ^ (e + 1074) * d) W ->
  0 < U -> (forall k, -1074 <= k <= 970 -> 2 ^ (k + 1074) <= U) -> 2 ^ (971 + 1074) = 2 * U -> (forall k, 972 <= k -> 4 * U <= 2 ^ (k + 1074)) ->
  let x := binary_round_aux fprec femax s m e l in
  ((2 ^ 54 - 1) * (U * d) <= W -> x = S754_infinity s) /\
  (~ (2 ^ 54 - 1) * (U * d) <= W -> finite x /\ minus x = s /\
     forall y, finite y -> Z.abs (units x * d - W) <= Z.abs (units y * d - W) /\ (Z.abs (units y * d - W) = Z.abs (units x * d - W) -> units y <> units x -> even_mantissa x)).
Proof.
  intros Hm He Hd Hf L HU U1 U2 U3. assert (PA0 : 0 < 2 ^ (e + 1074)) by (apply Z.pow_pos_nonneg; lia). assert (PV : 0 < U * d) by (apply Z.mul_pos_pos; assumption).
  assert (He' : -1074 <= e + Zdigits2 m \/ e = -1074). { left. destruct (Z.eq_dec m 0) as [->|]; [cbn; lia|]. pose proof (digitsZ m). lia. }
  destruct (shift_first m e l _ _ Hm He' Hf (Z.mul_pos_pos _ _ PA0 Hd) L) as (mrs & e1 & E1 & Hle & L1 & B1 & He1 & C1).
  replace (2 ^ (e1 - e) * (2 ^ (e + 1074) * d)) with (2 ^ (e1 + 1074) * d) in L1 by (rewrite Z.mul_assoc, <- Z.pow_add_r by lia; do 2 f_equal; lia).
  clear L Hf Hm He He' PA0 Hle.
  assert (PA : 0 < 2 ^ (e1 + 1074)) by (apply Z.pow_pos_nonneg; lia). assert (PP : 0 < 2 ^ (e1 + 1074) * d) by (apply Z.mul_pos_pos; assumption).
  cbv zeta. unfold binary_round_aux. rewrite E1. pose proof (rne_spec _ _ _ PP L1) as R. cbv zeta in R. set (r := round_nearest_even _ _) in *. set (m1 := shr_m mrs) in *. clearbody r. clear L1 E1.
  assert (Br : 0 <= r <= 2 ^ 53) by lia. assert (Cr : e1 = -1074 \/ 2 ^ 52 <= r) by lia.
  destruct (shift_second r e1 Br He1 Cr) as (mrs2 & e2 & E2 & B2 & C2 & D2). rewrite E2. clear E2. clearbody m1. clear Cr.
  assert (AU : e1 <= 970 -> 2 ^ (e1 + 1074) <= U) by (intros; apply U1; lia). assert (AU2 : e1 = 971 -> 2 ^ (e1 + 1074) = 2 * U) by (intros ->; exact U2). assert (AU3 : 972 <= e1 -> 4 * U <= 2 ^ (e1 + 1074)) by (apply U3). clear U1 U2 U3.
  assert (UX : shr_m mrs2 * 2 ^ (e2 + 1074) = r * 2 ^ (e1 + 1074)).
  { destruct D2 as [(_ & -> & ->)|(Er & -> & ->)]; [reflexivity|]. rewrite Er. replace (e1 + 1 + 1074) with (Z.succ (e1 + 1074)) by lia. rewrite Z.pow_succ_r by lia. change (2 ^ 53) with (2 ^ 52 * 2). ring. }
  pose proof (fun y H => no_between y m1 e1 H He1 (proj1 B1) C1) as NB. set (A := 2 ^ (e1 + 1074)) in *. clearbody A.
  assert (AD : e1 <= 970 -> A * d <= U * d) by (intros; apply Z.mul_le_mono_nonneg_r; auto; lia).
  assert (AD2 : e1 = 971 -> A * d = 2 * (U * d)) by (intros H; rewrite (AU2 H); ring). assert (AD3 : 972 <= e1 -> 4 * (U * d) <= A * d) by (intros; rewrite Z.mul_assoc; apply Z.mul_le_mono_nonneg_r; auto; lia).
  clear AU AU2 AU3. set (V := U * d) in *. clearbody V. clear HU.
  destruct (Z_le_gt_dec e2 971) as [Hfin|Hinf].
  - assert (NT : ~ (2 ^ 54 - 1) * V <= W).
    { clear - R AD AD2 B1 Hfin D2 PV. set (P := A * d) in *. clearbody P. intros T. change (2 ^ 54 - 1) with 18014398509481983 in T. change (2 ^ 53) with 9007199254740992 in *. destruct (Z_le_gt_dec e1 970) as [H|H].
      - specialize (AD H). nia.
      - assert (H1 : e1 = 971) by lia. specialize (AD2 H1). subst P. assert (r < 9007199254740992) by lia.
        destruct R as [(Er & R1 & R2 & R3)|(Er & R1 & R2 & R3)].
        + assert (m1 = 9007199254740992 - 1 \/ m1 <= 9007199254740992 - 2) as [->|] by lia; [|nia].
          assert (X : Z.even (9007199254740992 - 1) = true) by (apply R3; nia). discriminate X.
        + nia. }
    split; [intros X; destruct (NT X)|]. intros _. clear NT.
    set (x := match shr_m mrs2 with 0 => S754_zero s | Z.pos p => if e2 <=? femax - fprec then S754_finite s p e2 else S754_infinity s | Z.neg _ => S754_nan end).
    assert (FX : finite x /\ minus x = s /\ units x = r * A /\ (Z.even r = true -> even_mantissa x)).
    { unfold x. rewrite <- UX. clear - D2 B2 C2 Hfin He1. destruct (shr_m mrs2) as [|p|p] eqn:Em; [|destruct (Z.leb_spec e2 (femax - fprec)); [|unfold femax, fprec in *; lia]|lia].
      - cbn. repeat split.
      - split; [|split; [reflexivity|split; [reflexivity|]]].
        + cbn [finite]. apply valid_make; lia.
        + intros Ev. cbn [even_mantissa]. destruct D2 as [(_ & <- & _)|(_ & -> & _)]; [exact Ev|reflexivity]. }
    destruct FX as (F1 & F2 & F3 & F4). split; [exact F1|]. split; [exact F2|]. intros y Hy. rewrite F3. specialize (NB y Hy). set (uy := units y) in *. clearbody uy x.
    assert (RA : r * A * d = r * (A * d)) by ring. rewrite RA.
    apply (near_enough uy m1 r A (A * d) d W); auto. clear - NB Hd. destruct NB; [left|right]; split; auto; rewrite ?Z.mul_assoc; apply Z.mul_le_mono_nonneg_r; lia.
  - assert (T : (2 ^ 54 - 1) * V <= W).
    { clear - R AD3 AD2 B1 C1 Hinf D2 PV He1. set (P := A * d) in *. clearbody P. change (2 ^ 54 - 1) with 18014398509481983. change (2 ^ 53) with 9007199254740992 in *. change (2 ^ 52) with 4503599627370496 in *. destruct (Z_le_gt_dec 972 e1) as [H|H].
      - specialize (AD3 H). nia.
      - assert (e1 = 971 /\ r = 9007199254740992) as [H1 H2] by lia. specialize (AD2 H1). subst P. destruct R as [(Er & R1 & R2 & R3)|(Er & R1 & R2 & R3)]; [lia|]. assert (m1 = 9007199254740992 - 1) as -> by lia. nia. }
    split; [intros _|intros X; destruct (X T)]. clear - Hinf D2 B2 C2 He1. assert (shr_m mrs2 > 0) by lia. destruct (shr_m mrs2) as [|p|p]; try lia. destruct (Z.leb_spec e2 (femax - fprec)); [unfold femax, fprec in *; lia|reflexivity].
Qed.
Theorem round_aux_nearest s m e l n d : 0 <= m -> -1074 <= e -> 0 < d -> e <= fx (Zdigits2 m + e) -> lies (shr_record_of_loc m l) (2 ^ (e + 1074) * d) (n * 2 ^ 1074) ->
  nearest s n d (binary_round_aux fprec femax s m e l).
Proof.
  intros Hm He Hd Hf L. assert (P0 : 0 < 2 ^ 2044) by (apply Z.pow_pos_nonneg; [reflexivity|discriminate]).
  pose proof (round_core s m e l (n * 2 ^ 1074) d (2 ^ 2044) Hm He Hd Hf L P0) as H. cbv zeta in H.
  assert (T : too_large n d <-> (2 ^ 54 - 1) * (2 ^ 2044 * d) <= n * 2 ^ 1074).
  { unfold too_large. replace (2 ^ 2044) with (2 ^ 970 * 2 ^ 1074) by (rewrite <- Z.pow_add_r by discriminate; reflexivity).
    replace ((2 ^ 54 - 1) * (2 ^ 970 * 2 ^ 1074 * d)) with ((2 ^ 54 - 1) * 2 ^ 970 * d * 2 ^ 1074) by ring. apply Z.mul_le_mono_pos_r. apply Z.pow_pos_nonneg; [reflexivity|discriminate]. }
  unfold nearest, off. rewrite T. apply H.
  - intros k Hk. apply Z.pow_le_mono_r; [reflexivity|]. clear - Hk. lia.
  - change (971 + 1074) with (Z.succ 2044). apply Z.pow_succ_r. discriminate.
  - intros k Hk. replace 4 with (2 ^ 2) by reflexivity. rewrite <- Z.pow_add_r by discriminate. apply Z.pow_le_mono_r; [reflexivity|]. clear - Hk. lia.
Qed.
(** a quotient of whole numbers, and a whole number *)
Lemma new_location_lies q r d P : 0 < d -> 0 <= r < d -> 0 < P -> lies (shr_record_of_loc q (new_location d r)) (P * d) ((q * d + r) * P).
Proof.
  intros Hd Hr HP. unfold lies, new_location, new_location_even, new_location_odd.
  destruct (Z.even d) eqn:Ev; [apply Z.even_spec in Ev as (h & Eh)|apply (f_equal negb) in Ev; rewrite Z.negb_even in Ev; apply Z.odd_spec in Ev as (h & Eh)].
  - destruct (Zeq_bool r 0) eqn:Z0; [apply Zeq_bool_eq in Z0; subst r; cbn; ring|apply Zeq_bool_neq in Z0].
    destruct (Z.compare_spec (2 * r) d); cbn [shr_record_of_loc loc_of_shr_record shr_m]; try (split; nia); nia.
  - destruct (Zeq_bool r 0) eqn:Z0; [apply Zeq_bool_eq in Z0; subst r; cbn; ring|apply Zeq_bool_neq in Z0].
    destruct (Z.compare_spec (2 * r + 1) d); cbn [shr_record_of_loc loc_of_shr_record shr_m]; try (split; nia); nia.
Qed.
Theorem quotient_nearest s n d : 0 < n -> 0 < d -> nearest s n d (quotient s n d).
Proof.
  intros Hn Hd. unfold quotient, SFdiv_core_binary. rewrite fexp_fx, !Z.add_0_r, Z.sub_0_r. set (d1 := Zdigits2 n). set (d2 := Zdigits2 d). set (e := Z.min (fx (d1 - d2)) 0).
  assert (E : match - e with 0 => n | Z.pos _ => Z.shiftl n (- e) | Z.neg _ => 0 end = n * 2 ^ (- e)).
  { assert (0 <= - e) by (unfold e; lia). destruct (- e) eqn:X; [rewrite Z.mul_1_r; reflexivity|apply Z.shiftl_mul_pow2; lia|lia]. }
  change (0 - e) with (- e). rewrite E. destruct (Z.div_eucl (n * 2 ^ - e) d) as [q r] eqn:D. pose proof (Z_div_mod (n * 2 ^ - e) d ltac:(lia)) as DM. rewrite D in DM. destruct DM as [DM Hr].
  assert (P2 : 0 < 2 ^ (- e)) by (apply Z.pow_pos_nonneg; unfold e; lia). assert (He : -1074 <= e <= 0) by (unfold e, fx; lia). assert (P3 : 0 < 2 ^ (e + 1074)) by (apply Z.pow_pos_nonneg; lia).
  assert (Hq : 0 <= q) by nia.
  apply round_aux_nearest; [assumption|lia|assumption| |].
  - destruct (digitsZ n Hn) as [D1 B1]. destruct (digitsZ d Hd) as [D2 B2]. fold d1 in D1, B1. fold d2 in D2, B2. destruct (Z.eq_dec e (-1074)) as [->|Hne]; [unfold fx; lia|].
    assert (Hk : d1 - d2 <= Zdigits2 q + e).
    { destruct (Z.eq_dec q 0) as [->|Hz].
      - exfalso. rewrite Z.mul_0_r, Z.add_0_l in DM. assert (2 ^ (d1 - 1) * 2 ^ (- e) < 2 ^ d2) by nia. rewrite <- Z.pow_add_r in H by lia. apply Z.pow_lt_mono_r_iff in H; [|lia|lia]. unfold e, fx in *. lia.
      - destruct (digitsZ q ltac:(lia)) as [D3 B3]. set (k := Zdigits2 q) in *. assert (H : 2 ^ (d1 - 1) * 2 ^ (- e) < 2 ^ k * 2 ^ d2).
        { apply Z.le_lt_trans with (n * 2 ^ - e); [apply Z.mul_le_mono_nonneg_r; lia|]. rewrite DM. apply Z.lt_le_trans with ((q + 1) * d); [nia|]. apply Z.mul_le_mono_nonneg; lia. }
        rewrite <- !Z.pow_add_r in H by lia. apply Z.pow_lt_mono_r_iff in H; [|lia|lia]. lia. }
    unfold fx in *. unfold e, fx in *. lia.
  - replace (n * 2 ^ 1074) with ((q * d + r) * 2 ^ (e + 1074)); [apply new_location_lies; assumption|]. replace (q * d + r) with (n * 2 ^ - e) by lia. rewrite <- Z.mul_assoc, <- Z.pow_add_r by lia. do 2 f_equal. lia.
Qed.
(** ** there is one nearest float *)
Lemma valid_full s k f : f_ok (S754_finite s k f) -> f = -1074 \/ 2 ^ 52 <= Z.pos k.
Proof.
  unfold f_ok. cbn [valid_binary]. unfold bounded, canonical_mantissa. intros H. apply andb_true_iff in H as [H1 _]. apply Zeq_bool_eq in H1. rewrite fexp_fx in H1.
  pose proof (digits_bounds k) as B. set (d := Z.pos (digits2_pos k)) in *. destruct (Z.eq_dec f (-1074)); [auto|right]. replace 52 with (d - 1) by (unfold fx in H1; lia). lia.
Qed.
Lemma same_units K f k' f' : 0 < K < 2 ^ 53 -> 0 < k' < 2 ^ 53 -> -1074 <= f -> -1074 <= f' -> (f = -1074 \/ 2 ^ 52 <= K) -> (f' = -1074 \/ 2 ^ 52 <= k') -> K * 2 ^ (f + 1074) = k' * 2 ^ (f' + 1074) -> K = k' /\ f = f'.
Proof.
  assert (G : forall K f k' f', 0 < K < 2 ^ 53 -> -1074 <= f -> (f' = -1074 \/ 2 ^ 52 <= k') -> f < f' -> K * 2 ^ (f + 1074) = k' * 2 ^ (f' + 1074) -> False).
  { clear. intros K f k' f' HK Hf Hc L E. replace (f' + 1074) with ((f' - f - 1) + (1 + (f + 1074))) in E by lia. rewrite (Z.pow_add_r 2 (f' - f - 1)), (Z.pow_add_r 2 1) in E by lia.
    assert (0 < 2 ^ (f + 1074)) by (apply Z.pow_pos_nonneg; lia). assert (0 < 2 ^ (f' - f - 1)) by (apply Z.pow_pos_nonneg; lia). destruct Hc as [|Hc]; [lia|]. change (2 ^ 1) with 2 in E. change (2 ^ 53) with (2 ^ 52 * 2) in HK.
    assert (E' : K = k' * 2 ^ (f' - f - 1) * 2) by (apply (Z.mul_cancel_r _ _ (2 ^ (f + 1074))); [lia|rewrite E; ring]). nia. }
  intros HK Hk Hf Hf' Hc Hc' E. destruct (Z.lt_trichotomy f f') as [L|[->|L]]; [destruct (G K f k' f'); auto| |destruct (G k' f' K f); auto].
  split; [|reflexivity]. apply Z.mul_cancel_r in E; [assumption|]. assert (0 < 2 ^ (f' + 1074)) by (apply Z.pow_pos_nonneg; lia). lia.
Qed.
Lemma units_inj x y : finite x -> finite y -> minus x = minus y -> units x = units y -> x = y.
Proof.
  intros Hx Hy M U. destruct x as [s|s| |s k f], y as [s'|s'| |s' k' f']; cbn [finite minus units] in *; try contradiction; subst; try reflexivity.
  - pose proof (valid_parts _ _ _ Hy). assert (0 < 2 ^ (f' + 1074)) by (apply Z.pow_pos_nonneg; lia). nia.
  - pose proof (valid_parts _ _ _ Hx). assert (0 < 2 ^ (f + 1074)) by (apply Z.pow_pos_nonneg; lia). nia.
  - destruct (valid_parts _ _ _ Hx) as [A1 A2], (valid_parts _ _ _ Hy) as [B1 B2]. destruct (same_units (Z.pos k) f (Z.pos k') f') as [E ->]; try lia; eauto using valid_full. congruence.
Qed.
(** the next float behind an even one *)
Lemma next_float x : finite x -> even_mantissa x -> exists z, finite z /\ ~ even_mantissa z /\ units x < units z /\ forall y, finite y -> units y <= units x \/ units z <= units y.
Proof.
  intros Hx Ev. assert (exists k f, 0 <= k < 2 ^ 53 /\ -1074 <= f <= 971 /\ (f = -1074 \/ 2 ^ 52 <= k) /\ units x = k * 2 ^ (f + 1074) /\ Z.even k = true) as (k & f & Hk & Hf & Hc & U & Ek).
  { destruct x as [s|s| |s k f]; cbn [finite units even_mantissa] in *; try contradiction; [exists 0, (-1074); repeat split; auto; lia|]. exists (Z.pos k), f. destruct (valid_parts _ _ _ Hx). repeat split; auto; try lia. eauto using valid_full. }
  assert (Hk' : k + 1 < 2 ^ 53). { assert (k <> 2 ^ 53 - 1) by (intros ->; discriminate Ek). lia. }
  destruct (k + 1) as [|k1|] eqn:E1; try lia. assert (0 < 2 ^ (f + 1074)) by (apply Z.pow_pos_nonneg; lia). exists (S754_finite false k1 f). split; [apply valid_make; lia|].
  split; [cbn; change (Z.even (Z.pos k1) <> true); rewrite <- E1, Z.even_add, Ek; discriminate|]. rewrite U. cbn [units]. rewrite <- E1. split; [nia|]. intros y Hy. apply no_between; auto; lia.
Qed.
Theorem nearest_unique s n d x y : 0 < d -> nearest s n d x -> nearest s n d y -> x = y.
Proof.
  intros Hd [X1 X2] [Y1 Y2]. assert (D : too_large n d \/ ~ too_large n d) by (unfold too_large; destruct (Z_le_gt_dec ((2 ^ 54 - 1) * 2 ^ 970 * d) n); [left|right]; [assumption|]; apply Z.lt_nge, Z.gt_lt; assumption).
  destruct D as [T|T]; [rewrite X1, Y1 by assumption; reflexivity|]. destruct (X2 T) as (FX & MX & NX), (Y2 T) as (FY & MY & NY). clear X1 X2 Y1 Y2 T.
  apply units_inj; [assumption..|congruence|]. destruct (Z.eq_dec (units x) (units y)) as [|Ne]; [assumption|exfalso].
  assert (G : forall x y, finite x -> finite y -> (forall z, finite z -> off n d x <= off n d z /\ (off n d z = off n d x -> units z <> units x -> even_mantissa x)) ->
     (forall z, finite z -> off n d y <= off n d z /\ (off n d z = off n d y -> units z <> units y -> even_mantissa y)) -> units x < units y -> False).
  { clear x y FX FY MX MY NX NY Ne. intros x y FX FY NX NY L. pose proof (NX y FY) as [O1 EX]. pose proof (NY x FX) as [O2 EY].
    assert (Eo : off n d y = off n d x) by (apply Z.le_antisymm; assumption). assert (Ne : units y <> units x) by (clear - L; lia). specialize (EX Eo Ne). specialize (EY (eq_sym Eo) (not_eq_sym Ne)).
    destruct (next_float x FX EX) as (z & FZ & OZ & Lz & Nz). destruct (Nz y FY) as [|Nz']; [clear - L H; lia|]. pose proof (NX z FZ) as [O3 _].
    assert (units z = units y).
    { clear - Eo O3 Lz Nz' L Hd. unfold off in *. set (W := n * 2 ^ 1074) in *. clearbody W. assert (units x * d < units z * d) by (apply Z.mul_lt_mono_pos_r; assumption).
      assert (units x * d < units y * d) by (apply Z.mul_lt_mono_pos_r; assumption). assert (H1 : units z * d = units y * d).
      { assert (units z * d <= units y * d) by (apply Z.mul_le_mono_nonneg_r; lia). lia. } apply Z.mul_cancel_r in H1; lia. }
    apply OZ. clear - EY H FZ FY. destruct z as [s|s| |s k f], y as [s'|s'| |s' k' f']; cbn [finite units even_mantissa] in *; try contradiction; try exact Logic.I.
    - exfalso. pose proof (valid_parts _ _ _ FZ). assert (0 < 2 ^ (f + 1074)) by (apply Z.pow_pos_nonneg; lia). nia.
    - destruct (valid_parts _ _ _ FZ) as [A1 A2], (valid_parts _ _ _ FY) as [B1 B2]. destruct (same_units (Z.pos k) f (Z.pos k') f') as [E ->]; try lia; eauto using valid_full. congruence. }
  destruct (Z.lt_total (units x) (units y)) as [L|[E|L]]; [exact (G x y FX FY NX NY L)|exact (Ne E)|exact (G y x FY FX NY NX L)].
Qed.
