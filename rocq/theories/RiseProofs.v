(** * Sums of amounts never go down. *)
From Verif Require Import Base FloatFacts RoundSpec RoundProofs ArithProofs SampleProofs CountSpec RiseSpec.
From Coq Require Import Lia.
Open Scope Z_scope.


Lemma amount_parts v : amount v -> v = S754_infinity false \/ (finite v /\ sunits v = units v).
Proof.
  intros [F H]. destruct v as [s|[]| |[] k f]; try discriminate H; [right|left; reflexivity|right].
  - split; [exact F|]. unfold sunits. cbn [units minus]. destruct s; reflexivity.
  - split; [exact F|reflexivity].
Qed.
Lemma units_order m e m' e' : f_ok (S754_finite false m e) -> f_ok (S754_finite false m' e') -> fleb (S754_finite false m e) (S754_finite false m' e') = false -> Z.pos m' * 2 ^ (e' + 1074) < Z.pos m * 2 ^ (e + 1074).
Proof.
  intros F F' H. destruct (valid_parts _ _ _ F) as [K B]. destruct (valid_parts _ _ _ F') as [K' B']. pose proof (valid_full _ _ _ F) as V.
  unfold fleb, SFleb, SFcompare in H. destruct (Z.compare_spec e e') as [<-|L|L]; [|discriminate H|].
  - assert (Z.pos m' < Z.pos m). { destruct (Pos.compare_cont Eq m m') eqn:E; try discriminate H. change (Pos.compare_cont Eq m m') with (Pos.compare m m') in E. apply Pos.compare_gt_iff in E. exact E. }
    apply Z.mul_lt_mono_pos_r; [apply pow_pos; lia|assumption].
  - destruct V as [->|V]; [exfalso; lia|]. replace (e + 1074) with (((e - e' - 1) + 1) + (e' + 1074)) by lia. rewrite (Z.pow_add_r 2 ((e - e' - 1) + 1) (e' + 1074)), Z.mul_assoc by lia. apply Z.mul_lt_mono_pos_r; [apply pow_pos; lia|].
    rewrite Z.pow_add_r by lia. change (2 ^ 1) with 2. pose proof (pow_pos (e - e' - 1) ltac:(lia)) as P. assert (E2 : 2 ^ 53 = 2 * 2 ^ 52) by reflexivity. rewrite E2 in K'. clear - P V K'. set (q := 2 ^ (e - e' - 1)) in *. set (t := 2 ^ 52) in *. clearbody q t. assert (Z.pos m <= Z.pos m * q) by nia. lia.
Qed.
Lemma fleb_units x z : finite x -> finite z -> minus z = false -> sunits x = units x -> units x <= units z -> fleb x z = true.
Proof.
  intros Fx Fz Mz Sx H. destruct (fleb x z) eqn:E; [reflexivity|exfalso]. destruct x as [s|s| |s m e], z as [s'|s'| |s' m' e']; try contradiction; cbn [minus] in Mz; subst.
  - discriminate E.
  - discriminate E.
  - pose proof (finite_units _ _ _ Fx). cbn [units] in H, H0. lia.
  - destruct s; [pose proof (finite_units _ _ _ Fx); unfold sunits in Sx; cbn [minus] in Sx; lia|]. pose proof (units_order _ _ _ _ Fx Fz E). cbn [units] in H. lia.
Qed.
Lemma finite_ok x : finite x -> f_ok x.
Proof. destruct x; try contradiction; trivial. Qed.
Theorem fadd_rises x y : amount x -> amount y -> fleb x (fadd x y) = true /\ amount (fadd x y).
Proof.
  intros Ax Ay. destruct (amount_parts _ Ax) as [->|[Fx Sx]], (amount_parts _ Ay) as [->|[Fy Sy]].
  - split; [reflexivity|]. split; reflexivity.
  - assert (fadd (S754_infinity false) y = S754_infinity false) as -> by (destruct y; try contradiction; reflexivity). split; [reflexivity|]. split; reflexivity.
  - assert (fadd x (S754_infinity false) = S754_infinity false) as -> by (destruct x; try contradiction; reflexivity). split; [destruct x as [s|s| |[] ? ?]; try contradiction; reflexivity|]. split; reflexivity.
  - pose proof (units_nonneg _ Fx) as Ux. pose proof (units_nonneg _ Fy) as Uy. destruct (Z.eq_dec (sunits x + sunits y) 0) as [E|N].
    + destruct (fadd_cancels _ _ Fx Fy E) as (s & -> & _). assert (units x = 0) by lia. split; [|split; reflexivity].
      destruct x as [s'|s'| |s' m e]; try contradiction; [reflexivity|]. pose proof (finite_units _ _ _ Fx). lia.
    + pose proof (fadd_nearest _ _ Fx Fy N) as [Nl Ns]. rewrite Sx, Sy in *. destruct (Z.ltb_spec (units x + units y) 0) as [L|_]; [lia|]. rewrite (Z.abs_eq (units x + units y)) in * by lia.
      destruct (Z_le_dec ((2 ^ 54 - 1) * 2 ^ 970 * 2 ^ 1074) (units x + units y)) as [T|T].
      * rewrite (Nl T). split; [destruct x as [s|s| |[] ? ?]; try contradiction; reflexivity|]. split; reflexivity.
      * destruct (Ns T) as (Fz & Mz & C). destruct (C x Fx) as [C1 _]. clear C Nl Ns T. unfold off in C1.
        assert (P : 0 < 2 ^ 1074) by (apply pow_pos; lia). set (D := 2 ^ 1074) in *. clearbody D. rewrite <- !Z.mul_sub_distr_r, !Z.abs_mul, (Z.abs_eq D) in C1 by lia. apply Z.mul_le_mono_pos_r in C1; [|exact P].
        assert (Ge : units x <= units (fadd x y)) by lia. split; [apply fleb_units; assumption|]. split; [apply finite_ok; exact Fz|].
        apply fleb_units; [reflexivity|exact Fz|exact Mz|reflexivity|]. cbn [units fzero]. lia.
Qed.
Lemma fleb_trans_amount x y z : amount x -> amount y -> fleb x y = true -> fleb y z = true -> fleb x z = true.
Proof.
  intros [_ Ax] [_ Ay] H1 H2. destruct x as [sx|[]| |[] mx ex], y as [sy|[]| |[] my ey], z as [sz|[]| |[] mz ez]; try discriminate; try reflexivity.
  unfold fleb, SFleb, SFcompare in *. clear Ax Ay. destruct (Z.compare_spec ex ey) as [->|L|L]; [|destruct (Z.compare_spec ey ez) as [->|M|M]; [| |discriminate H2]|discriminate H1].
  - destruct (ey ?= ez) eqn:C; try reflexivity; [|discriminate H2]. change (Pos.compare_cont Eq) with Pos.compare in *. destruct (Pos.compare_spec mx my), (Pos.compare_spec my mz), (Pos.compare_spec mx mz); try reflexivity; try discriminate; lia.
  - apply Z.compare_lt_iff in L. rewrite L. reflexivity.
  - assert (L' : ex < ez) by lia. apply Z.compare_lt_iff in L'. rewrite L'. reflexivity.
Qed.
Lemma fleb_refl_amount x : amount x -> fleb x x = true.
Proof.
  intros [_ A]. destruct x as [s|[]| |[] m e]; try discriminate; try reflexivity. unfold fleb, SFleb, SFcompare. rewrite Z.compare_refl, Pos.compare_cont_refl. reflexivity.
Qed.
Lemma fold_rises vs : forall x, amount x -> Forall amount vs -> fleb x (fold_left fadd vs x) = true /\ amount (fold_left fadd vs x).
Proof.
  induction vs as [|v vs IH]; intros x A H; [split; [apply fleb_refl_amount|]; exact A|]. inversion H as [|? ? Av Avs]; subst. cbn [fold_left]. destruct (fadd_rises x v A Av) as [R1 R2]. destruct (IH _ R2 Avs) as [R3 R4].
  split; [|exact R4]. exact (fleb_trans_amount _ _ _ A R2 R1 R3).
Qed.
