(** * For which n the quotient of 1 and the quotient of 1 and n is n, in floats. *)
From Verif Require Import Base FloatFacts RoundSpec RoundProofs NumberModel ArithProofs SampleProofs SampleProps RecipSpec.
From Coq Require Import Lia Znumtheory Zpow_facts.
Open Scope Z_scope.

(** floats of other units than M 2^J, a mantissa of full length, are 2^J away at least *)
Lemma gap z M J : finite z -> 0 <= J -> 2 ^ 52 < M <= 2 ^ 53 -> units z <> M * 2 ^ J -> 2 ^ J <= Z.abs (units z - M * 2 ^ J).
Proof.
  intros F HJ HM Ne. assert (P := pow_pos J HJ). change (2 ^ 52) with 4503599627370496 in HM. change (2 ^ 53) with 9007199254740992 in HM.
  destruct z as [s|s| |s k f]; cbn [finite] in F; try contradiction; cbn [units] in *.
  - set (E := 2 ^ J) in *. clearbody E. nia.
  - destruct (valid_parts _ _ _ F) as [Hk Hf]. change (2 ^ 53) with 9007199254740992 in Hk. destruct (Z_le_gt_dec J (f + 1074)) as [H|H].
    + replace (f + 1074) with ((f + 1074 - J) + J) in * by lia. rewrite Z.pow_add_r in * by lia. assert (0 < 2 ^ (f + 1074 - J)) by (apply pow_pos; lia). rewrite Z.mul_assoc in *. set (q := Z.pos k * 2 ^ (f + 1074 - J)) in *. clearbody q. set (E := 2 ^ J) in *. clearbody E.
      rewrite <- Z.mul_sub_distr_r, Z.abs_mul, (Z.abs_eq E) by lia. assert (q <> M) by (intros ->; apply Ne; reflexivity). nia.
    + replace J with (J - (f + 1074) - 1 + 1 + (f + 1074)) in * by lia. rewrite 2 Z.pow_add_r in * by lia. change (2 ^ 1) with 2 in *. assert (0 < 2 ^ (J - (f + 1074) - 1)) by (apply pow_pos; lia). assert (0 < 2 ^ (f + 1074)) by (apply pow_pos; lia).
      set (a := 2 ^ (J - (f + 1074) - 1)) in *. set (e := 2 ^ (f + 1074)) in *. clearbody a e. clear Ne P. assert (Z.pos k * e < 9007199254740992 * e) by nia. assert (e <= a * e) by nia. assert (9007199254740994 * (a * e) <= 2 * M * (a * e)) by nia.
      replace (a * 2 * e) with (2 * (a * e)) by ring. replace (M * (2 * (a * e))) with (2 * M * (a * e)) by ring. set (ae := a * e) in *. clearbody ae. lia.
Qed.
Lemma near_grid s n d y M J : finite y -> minus y = s -> units y = M * 2 ^ J -> 2 ^ 52 < M <= 2 ^ 53 -> 0 <= J -> 0 < d -> ~ too_large n d -> 2 * Z.abs (M * 2 ^ J * d - n * 2 ^ 1074) < 2 ^ J * d -> nearest s n d y.
Proof.
  intros F S U HM HJ Hd T H. split; [contradiction|]. intros _. split; [exact F|]. split; [exact S|]. intros z Fz. unfold off. rewrite U. set (W := n * 2 ^ 1074) in *. clearbody W.
  destruct (Z.eq_dec (units z) (M * 2 ^ J)) as [E|E]; [rewrite E; split; [apply Z.le_refl|congruence]|].
  assert (G := gap z M J Fz HJ HM E). set (y0 := M * 2 ^ J) in *. set (P := 2 ^ J) in *. clearbody y0 P. assert (X : P * d <= Z.abs (units z * d - y0 * d)) by (rewrite <- Z.mul_sub_distr_r, Z.abs_mul, (Z.abs_eq d) by lia; nia).
  clear G E HM U. set (zd := units z * d) in *. set (yd := y0 * d) in *. set (Pd := P * d) in *. clearbody zd yd Pd. split; lia.
Qed.
Lemma far_grid s n d y M J : units y = M * 2 ^ J -> 2 ^ 52 < M < 2 ^ 53 -> 0 <= J <= 2044 -> 0 < d -> ~ too_large n d -> 2 ^ J * d < 2 * Z.abs (M * 2 ^ J * d - n * 2 ^ 1074) -> ~ nearest s n d y.
Proof.
  intros U HM HJ Hd T H [_ N]. destruct (N T) as (_ & _ & N'). clear N.
  assert (Hi : exists z, finite z /\ units z = (M + 1) * 2 ^ J).
  { destruct (Z.eq_dec (M + 1) (2 ^ 53)) as [E|E].
    - destruct (float_at false (2 ^ 52) (J + 1)) as (z & Fz & _ & Uz); [split; [apply Z.le_refl|reflexivity]|lia|]. exists z. split; [exact Fz|]. rewrite Uz, E, Z.pow_add_r by lia. change (2 ^ 53) with (2 ^ 52 * 2). rewrite <- Z.mul_assoc, (Z.mul_comm 2). reflexivity.
    - destruct (float_at false (M + 1) J) as (z & Fz & _ & Uz); [change (2 ^ 52) with 4503599627370496 in *; change (2 ^ 53) with 9007199254740992 in *; lia|lia|]. exists z. split; assumption. }
  assert (Lo : exists z, finite z /\ units z = (M - 1) * 2 ^ J).
  { destruct (float_at false (M - 1) J) as (z & Fz & _ & Uz); [change (2 ^ 52) with 4503599627370496 in *; change (2 ^ 53) with 9007199254740992 in *; lia|lia|]. exists z. split; assumption. }
  destruct Hi as (z & Fz & Uz), Lo as (z' & Fz' & Uz'). destruct (N' z Fz) as [N1 _], (N' z' Fz') as [N2 _]. unfold off in *. rewrite U, Uz, Uz' in *. set (W := n * 2 ^ 1074) in *. clearbody W.
  assert (P := pow_pos J (proj1 HJ)). replace ((M + 1) * 2 ^ J * d) with (M * 2 ^ J * d + 2 ^ J * d) in N1 by ring. replace ((M - 1) * 2 ^ J * d) with (M * 2 ^ J * d - 2 ^ J * d) in N2 by ring.
  assert (0 < 2 ^ J * d) by (apply Z.mul_pos_pos; assumption). set (yd := M * 2 ^ J * d) in *. set (Pd := 2 ^ J * d) in *. clearbody yd Pd. lia.
Qed.
(** an odd divisor of a power of two *)
Lemma odd_divisor a b j : 0 <= j -> a * (2 * b + 1) = 2 ^ j -> 2 * b + 1 = 1 \/ 2 * b + 1 = -1.
Proof.
  intros Hj E. destruct (Z.eq_dec j 0) as [->|Hj']; [apply Z.divide_1_r; exists a; symmetry; exact E|].
  assert (R : rel_prime (2 * b + 1) (2 ^ j)). { apply rel_prime_Zpower_r; [lia|]. apply bezout_rel_prime. apply (Bezout_intro _ _ _ 1 (- b)). ring. }
  assert (D : (2 * b + 1 | 1)). { destruct R as [_ _ G]. apply G; [apply Z.divide_refl|exists a; symmetry; exact E]. }
  apply Z.divide_1_r in D. exact D.
Qed.

Section Recip.
Variables n m : Z.
Notation k := (Z.log2 n).
Hypothesis Hn : 1 <= n <= 2 ^ 53.
Hypothesis Hp : 2 ^ k <> n.
Hypothesis Hm : 2 * Z.abs (m * n - 2 ^ (53 + k)) <= n.

Lemma recip_k : 0 <= k <= 52 /\ 2 ^ k < n < 2 * 2 ^ k.
Proof.
  destruct (Z.log2_spec n) as [L1 L2]; [lia|]. rewrite Z.pow_succ_r in L2 by apply Z.log2_nonneg. split; [|split; [lia|exact L2]]. split; [apply Z.log2_nonneg|].
  assert (2 ^ k < 2 ^ 53) by lia. apply Z.pow_lt_mono_r_iff in H; [lia|reflexivity|discriminate].
Qed.
Lemma recip_m : 2 ^ 52 < m < 2 ^ 53.
Proof.
  destruct recip_k as [K1 K2]. assert (HK : 2 ^ k <= 2 ^ 52) by (apply Z.pow_le_mono_r; [reflexivity|lia]). rewrite Z.pow_add_r in Hm by lia. change (2 ^ 53) with 9007199254740992 in *. change (2 ^ 52) with 4503599627370496 in *. set (K := 2 ^ k) in *. clearbody K. clear Hp K1. split.
  - destruct (Z_le_gt_dec m 4503599627370496) as [H|H]; [exfalso|lia]. assert (m * n <= 4503599627370496 * n) by nia. lia.
  - destruct (Z_le_gt_dec 9007199254740992 m) as [H|H]; [exfalso|lia]. assert (9007199254740992 * n <= m * n) by nia. lia.
Qed.
Lemma recip_strict : 2 * Z.abs (m * n - 2 ^ (53 + k)) < n.
Proof.
  destruct recip_k as [K1 K2], recip_m as [M1 M2]. change (2 ^ 52) with 4503599627370496 in M1. apply Z.le_neq. split; [exact Hm|]. intros E.
  assert (X : exists b, n * (2 * b + 1) = 2 ^ (54 + k) /\ 1 < 2 * b + 1).
  { replace (2 ^ (54 + k)) with (2 * 2 ^ (53 + k)) by (rewrite <- Z.pow_succ_r by lia; f_equal; lia). set (T := 2 ^ (53 + k)) in *. clearbody T. destruct (Z_le_gt_dec 0 (m * n - T)); [rewrite Z.abs_eq in E by lia; exists (m - 1)|rewrite Z.abs_neq in E by lia; exists m]; lia. }
  destruct X as (b & E1 & E2). destruct (odd_divisor n b (54 + k)) as [H|H]; [lia|exact E1|lia|lia].
Qed.
Lemma recip_tie : Z.abs (m * n - 2 ^ (53 + k)) * 2 ^ 53 <> m * 2 ^ k.
Proof.
  destruct recip_k as [K1 K2], recip_m as [M1 M2]. change (2 ^ 52) with 4503599627370496 in M1. intros E. replace 53 with (52 - k + 1 + k) in E at 2 by lia. rewrite !(Z.pow_add_r 2 _ k) in E by lia. rewrite (Z.pow_add_r 2 (52 - k) 1) in E by lia. change (2 ^ 1) with 2 in E. rewrite Z.mul_assoc in E. apply Z.mul_reg_r in E; [|pose proof (pow_pos k (proj1 K1)); lia].
  rewrite <- Z.pow_add_r in E by lia. assert (C := pow_pos (52 - k) ltac:(lia)). set (c := 2 ^ (52 - k)) in *. clearbody c.
  assert (X : exists a b, a * (2 * b + 1) = 2 ^ (53 + k) /\ 1 < 2 * b + 1).
  { set (T := 2 ^ (53 + k)) in *. clearbody T. destruct (Z_le_gt_dec 0 (m * n - T)).
    - rewrite Z.abs_eq in E by lia. exists (m * n - T), (c * n - 1). split; [|nia]. assert (m * n = (m * n - T) * (c * 2) * n) by (rewrite E; reflexivity). lia.
    - rewrite Z.abs_neq in E by lia. exists (T - m * n), (c * n). split; [|nia]. assert (m * n = - (m * n - T) * (c * 2) * n) by (rewrite E; reflexivity). lia. }
  destruct X as (a & b & E1 & E2). destruct (odd_divisor a b (53 + k)) as [H|H]; [lia|exact E1|lia|lia].
Qed.
Lemma recip_first : exists r, quotient false 1 n = r /\ finite r /\ minus r = false /\ units r = m * 2 ^ (1021 - k).
Proof.
  destruct recip_k as [K1 K2], recip_m as [M1 M2]. destruct (float_at false m (1021 - k)) as (r & F & S & U); [split; [apply Z.lt_le_incl; exact M1|exact M2]|lia|]. exists r. split; [|auto].
  eapply nearest_unique; [|apply quotient_nearest; [reflexivity|lia]|]; [lia|]. apply (near_grid false 1 n r m (1021 - k)); [exact F|exact S|exact U|split; [exact M1|apply Z.lt_le_incl; exact M2]|lia|lia| |].
  - unfold too_large. assert (0 < 2 ^ 970) by (apply pow_pos; discriminate). change (2 ^ 54 - 1) with 18014398509481983. set (P := 2 ^ 970) in *. clearbody P. clear - H Hn. nia.
  - rewrite Z.mul_1_l. replace (2 ^ 1074) with (2 ^ (53 + k) * 2 ^ (1021 - k)) by (rewrite <- Z.pow_add_r by lia; f_equal; lia). assert (P := pow_pos (1021 - k) ltac:(lia)). pose proof recip_strict as H. set (J := 2 ^ (1021 - k)) in *. set (T := 2 ^ (53 + k)) in *. clearbody J T. clear - P H.
    replace (m * J * n - T * J) with ((m * n - T) * J) by ring. rewrite Z.abs_mul, (Z.abs_eq J) by lia. nia.
Qed.
Lemma recip_fits r : units r = m * 2 ^ (1021 - k) -> ~ too_large (2 ^ 1074) (units r).
Proof.
  intros U. destruct recip_k as [K1 K2], recip_m as [M1 M2]. unfold too_large. rewrite U. intros X. apply (Z.lt_irrefl (2 ^ 1074)). eapply Z.lt_le_trans; [|exact X]. replace (2 ^ 1074) with (2 ^ 970 * 2 ^ 104) by (rewrite <- Z.pow_add_r by discriminate; reflexivity).
    assert (P := pow_pos (1021 - k) ltac:(lia)). assert (P2 : 0 < 2 ^ 970) by (apply pow_pos; discriminate). rewrite <- Z.mul_assoc, (Z.mul_comm (2 ^ 54 - 1)), <- Z.mul_assoc. apply Z.mul_lt_mono_pos_l; [exact P2|].
    change (2 ^ 104) with 20282409603651670423947251286016. change (2 ^ 54 - 1) with 18014398509481983. change (2 ^ 52) with 4503599627370496 in M1. set (J := 2 ^ (1021 - k)) in *. clearbody J. clear - P M1. nia.
Qed.
Lemma recip_one : fmul fone (fdiv fone (quotient false 1 n)) = fdiv fone (quotient false 1 n).
Proof.
  destruct recip_first as (r & -> & F & S & U). destruct recip_k as [K1 K2], recip_m as [M1 M2]. assert (PU : 0 < units r) by (rewrite U; apply Z.mul_pos_pos; [change (2 ^ 52) with 4503599627370496 in M1; lia|apply pow_pos; lia]).
  pose proof (frecip_nearest r F PU) as [_ N]. destruct (N (recip_fits r U)) as (Fx & Mx & Nx). clear N. rewrite S in Mx. set (x := fdiv fone r) in *. clearbody x. assert (HU : 0 < 2 ^ 1074) by (apply pow_pos; discriminate).
  assert (R1 : units r <= 2 ^ 1074).
  { rewrite U. apply Z.le_trans with (2 ^ 53 * 2 ^ (1021 - k)); [apply Z.mul_le_mono_nonneg_r; [apply Z.pow_nonneg; discriminate|apply Z.lt_le_incl; exact M2]|]. rewrite <- Z.pow_add_r by lia. apply Z.pow_le_mono_r; [reflexivity|lia]. }
  assert (Fo : finite fone) by (vm_compute; exact Logic.I || reflexivity). assert (Uo : units fone = 2 ^ 1074) by (vm_compute; reflexivity).
  assert (L : 2 ^ 1074 <= units x).
  { destruct (Nx fone Fo) as [Nx' _]. unfold off in Nx'. rewrite Uo in Nx'. pose proof (units_nonneg x Fx) as X0. clear - Nx' HU R1 PU X0. set (V := 2 ^ 1074) in *. clearbody V. set (R := units r) in *. set (X := units x) in *. clearbody R X. destruct (Z_le_gt_dec V X) as [H|H]; [exact H|exfalso]. assert (X * R < V * R) by nia. assert (V * R <= V * V) by nia. lia. }
  destruct (positive_finite x Fx ltac:(eapply Z.lt_le_trans; [exact HU|exact L])) as (a & f & E & O). rewrite Mx in E.
  assert (X : nearest false (units x) (2 ^ 1074) (fmul fone x)).
  { rewrite E in L, O |- *. pose proof (exponent_low _ _ _ 1074 O L ltac:(discriminate)) as E2. assert (Oo : f_ok fone) by (vm_compute; exact Logic.I || reflexivity). unfold fone in Oo |- *.
    match goal with |- nearest _ _ _ (fmul ?o _) => let o' := eval vm_compute in o in replace o with o' in Oo |- * by (vm_compute; reflexivity) end.
    match goal with |- nearest _ _ _ (fmul (S754_finite ?s0 ?k0 ?f0) _) => pose proof (fmul_nearest s0 k0 f0 _ _ _ Oo O ltac:(clear - E2; lia)) as N; cbn [xorb] in N; assert (Uo' : units (S754_finite s0 k0 f0) = 2 ^ 1074) by (vm_compute; reflexivity) end.
    rewrite Uo', Z.mul_comm in N. apply nearest_scale in N; [exact N|exact HU|exact HU]. }
  eapply nearest_unique; [exact HU|exact X|]. apply exact_nearest; [exact HU|exact Fx|exact Mx|reflexivity|apply finite_fits; exact Fx].
Qed.
Lemma recip_iff_odd : fdiv fone (quotient false 1 n) = fofZ n <-> Z.abs (m * n - 2 ^ (53 + k)) * 2 ^ 53 < m * 2 ^ k.
Proof.
  destruct recip_first as (r & -> & F & S & U). destruct recip_k as [K1 K2], recip_m as [M1 M2]. assert (PU : 0 < units r) by (rewrite U; apply Z.mul_pos_pos; [change (2 ^ 52) with 4503599627370496 in M1; lia|apply pow_pos; lia]).
  pose proof (frecip_nearest r F PU) as N. rewrite S in N. destruct (fofZ_exact n) as [Fn Un]; [rewrite Z.abs_eq; lia|]. assert (HU : 0 < 2 ^ 1074) by (apply pow_pos; discriminate).
  assert (Mn : minus (fofZ n) = false /\ units (fofZ n) = n * 2 ^ (52 - k) * 2 ^ (1022 + k)).
  { pose proof (units_nonneg _ Fn) as P. unfold sunits in Un. rewrite <- Z.mul_assoc, <- Z.pow_add_r by lia. replace (52 - k + (1022 + k)) with 1074 by lia. set (V := 2 ^ 1074) in *. clearbody V. clear - Un P HU Hn. destruct (minus (fofZ n)); [exfalso; nia|]. auto. }
  destruct Mn as [Mn Vn].
  assert (BM : 2 ^ 52 < n * 2 ^ (52 - k) < 2 ^ 53).
  { replace (2 ^ 53) with (2 * 2 ^ k * 2 ^ (52 - k)) by (rewrite <- Z.mul_assoc, <- Z.pow_add_r by lia; replace (k + (52 - k)) with 52 by lia; reflexivity). replace (2 ^ 52) with (2 ^ k * 2 ^ (52 - k)) by (rewrite <- Z.pow_add_r by lia; f_equal; lia).
    assert (P := pow_pos (52 - k) ltac:(lia)). split; apply Z.mul_lt_mono_pos_r; (exact P || apply K2). }
  pose proof (recip_fits r U) as T.
  assert (Sc : 2 * Z.abs (n * 2 ^ (52 - k) * 2 ^ (1022 + k) * units r - 2 ^ 1074 * 2 ^ 1074) = 2 ^ (1022 - 1 + (1021 - k)) * (Z.abs (m * n - 2 ^ (53 + k)) * 2 ^ 53 * 2) /\ 2 ^ (1022 + k) * units r = 2 ^ (1022 - 1 + (1021 - k)) * (m * 2 ^ k * 2)).
  { rewrite U. split.
    - rewrite <- (Z.mul_assoc n), <- (Z.pow_add_r 2 (52 - k)) by lia. replace (52 - k + (1022 + k)) with 1074 by lia. replace (n * 2 ^ 1074 * (m * 2 ^ (1021 - k)) - 2 ^ 1074 * 2 ^ 1074) with ((m * n - 2 ^ (53 + k)) * (2 ^ 1074 * 2 ^ (1021 - k))).
      + assert (P := pow_pos (1021 - k) ltac:(lia)). rewrite Z.abs_mul, (Z.abs_eq (2 ^ 1074 * 2 ^ (1021 - k))) by (apply Z.lt_le_incl, Z.mul_pos_pos; assumption).
        replace (2 ^ 1074 * 2 ^ (1021 - k)) with (2 ^ (1022 - 1 + (1021 - k)) * 2 ^ 53) by (rewrite <- !Z.pow_add_r by lia; f_equal; lia). ring.
      + rewrite Z.mul_sub_distr_r. f_equal; [ring|]. rewrite Z.mul_assoc, (Z.mul_comm _ (2 ^ 1074)), <- Z.mul_assoc. f_equal. rewrite <- Z.pow_add_r by lia. f_equal. lia.
    - replace (1022 + k) with (1021 + k + 1) by lia. change (1022 - 1) with 1021. rewrite !Z.pow_add_r by lia. change (2 ^ 1) with 2. generalize (2 ^ 1021). intros. ring. }
  destruct Sc as [Sc1 Sc2]. assert (P := pow_pos (1022 - 1 + (1021 - k)) ltac:(lia)).
  assert (Cmp : 2 * Z.abs (n * 2 ^ (52 - k) * 2 ^ (1022 + k) * units r - 2 ^ 1074 * 2 ^ 1074) < 2 ^ (1022 + k) * units r <-> Z.abs (m * n - 2 ^ (53 + k)) * 2 ^ 53 < m * 2 ^ k).
  { rewrite Sc1, Sc2, <- Z.mul_lt_mono_pos_l by exact P. rewrite <- Z.mul_lt_mono_pos_r by reflexivity. reflexivity. }
  assert (Cmp' : 2 ^ (1022 + k) * units r < 2 * Z.abs (n * 2 ^ (52 - k) * 2 ^ (1022 + k) * units r - 2 ^ 1074 * 2 ^ 1074) <-> m * 2 ^ k < Z.abs (m * n - 2 ^ (53 + k)) * 2 ^ 53).
  { rewrite Sc1, Sc2, <- Z.mul_lt_mono_pos_l by exact P. rewrite <- Z.mul_lt_mono_pos_r by reflexivity. reflexivity. }
  split.
  - intros E. destruct (Z.lt_trichotomy (Z.abs (m * n - 2 ^ (53 + k)) * 2 ^ 53) (m * 2 ^ k)) as [H|[H|H]]; [exact H|exfalso; exact (recip_tie H)|exfalso].
    rewrite E in N. revert N. apply (far_grid false _ _ _ (n * 2 ^ (52 - k)) (1022 + k)); [exact Vn|exact BM|lia|exact PU|exact T|]. apply Cmp'. exact H.
  - intros H. eapply nearest_unique; [exact PU|exact N|]. apply (near_grid false _ _ _ (n * 2 ^ (52 - k)) (1022 + k)); [exact Fn|exact Mn|exact Vn|split; [apply BM|apply Z.lt_le_incl, BM]|lia|exact PU|exact T|]. apply Cmp. exact H.
Qed.
End Recip.

Lemma recip_power k : 0 <= k <= 53 -> fdiv fone (quotient false 1 (2 ^ k)) = fofZ (2 ^ k).
Proof.
  intros H. apply same_float_eq. assert (G : forallb (fun i => let n := 2 ^ Z.of_nat i in same_float (fdiv fone (quotient false 1 n)) (fofZ n)) (seq 0 54) = true) by (vm_compute; reflexivity).
  rewrite forallb_forall in G. specialize (G (Z.to_nat k)). cbv zeta in G. rewrite Z2Nat.id in G by lia. apply G. apply in_seq. lia.
Qed.
Lemma recip_round n : 1 <= n <= 2 ^ 53 -> 2 * Z.abs ((2 ^ (54 + Z.log2 n) + n) / (2 * n) * n - 2 ^ (53 + Z.log2 n)) <= n.
Proof.
  intros Hn. assert (K : 0 <= Z.log2 n) by apply Z.log2_nonneg. set (m := (2 ^ (54 + Z.log2 n) + n) / (2 * n)).
  pose proof (Z.div_mod (2 ^ (54 + Z.log2 n) + n) (2 * n) ltac:(lia)) as D. pose proof (Z.mod_pos_bound (2 ^ (54 + Z.log2 n) + n) (2 * n) ltac:(lia)) as B. fold m in D. replace (2 ^ (54 + Z.log2 n)) with (2 * 2 ^ (53 + Z.log2 n)) in * by (rewrite <- Z.pow_succ_r by lia; f_equal; lia).
    set (T := 2 ^ (53 + Z.log2 n)) in *. set (q := (2 * T + n) mod (2 * n)) in *. clearbody m T q. clear - D B Hn. assert (2 * n * m = 2 * (m * n)) by ring. lia.
Qed.
Theorem recip_iff n : 1 <= n <= 2 ^ 53 -> fdiv fone (quotient false 1 n) = fofZ n <-> exact_at n.
Proof.
  intros Hn. unfold exact_at. cbv zeta. set (m := (2 ^ (54 + Z.log2 n) + n) / (2 * n)).
  assert (K : 0 <= Z.log2 n) by apply Z.log2_nonneg.
  pose proof (recip_round n Hn) as Hm. fold m in Hm.
  destruct (Z.eq_dec (2 ^ Z.log2 n) n) as [E|E]; [|apply recip_iff_odd; assumption].
  assert (K3 : Z.log2 n <= 53) by (rewrite <- (Z.log2_pow2 53) by discriminate; apply Z.log2_le_mono; lia).
  split; intros _; [|rewrite <- E; apply recip_power; split; assumption].
  rewrite E. rewrite Z.pow_add_r in * by lia. rewrite E in Hm |- *. clearbody m. change (2 ^ 53) with 9007199254740992 in *. clear - Hm Hn. assert (m = 9007199254740992) by nia. subst m. rewrite Z.sub_diag. cbn [Z.abs]. lia.
Qed.
Theorem recip_times n : 1 <= n <= 2 ^ 53 -> ~ exact_at n -> fmul fone (fdiv fone (quotient false 1 n)) = fdiv fone (quotient false 1 n).
Proof.
  intros Hn X. assert (K : 0 <= Z.log2 n) by apply Z.log2_nonneg. assert (K3 : Z.log2 n <= 53) by (rewrite <- (Z.log2_pow2 53) by discriminate; apply Z.log2_le_mono; lia).
  destruct (Z.eq_dec (2 ^ Z.log2 n) n) as [E|E]; [exfalso; apply X; apply recip_iff; [exact Hn|]; rewrite <- E; apply recip_power; split; assumption|].
  apply (recip_one n ((2 ^ (54 + Z.log2 n) + n) / (2 * n))); [exact Hn|exact E|apply recip_round; exact Hn].
Qed.
