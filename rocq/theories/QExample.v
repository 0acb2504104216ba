(** * A concrete instance of the [QLib] interface, used by examples only. *)
From Verif Require Import Base BaseFacts TelemetryModel.

Lemma xh_bump_sum bs : forall cs x, sumN (xh_bump bs cs x) = (sumN cs + 1)%N.
Proof.
  induction bs as [|b bs IH]; intros [|c cs] x; cbn; try (unfold sumN; cbn; lia).
  destruct (fleb x b); unfold sumN in *; cbn; [lia|]. rewrite IH; lia.
Qed.
Lemma nzip_sum a : forall b, sumN (nzip a b) = (sumN a + sumN b)%N.
Proof.
  unfold sumN; induction a as [|x a IH]; intros [|y b]; cbn; try lia. rewrite IH; lia.
Qed.
Lemma xh_pair_sum bs : forall cs, sumN (map snd (xh_pair bs cs)) = sumN cs.
Proof.
  induction bs as [|b bs IH]; intros cs.
  - unfold sumN; induction cs as [|c cs IHc]; cbn in *; [reflexivity|]. rewrite IHc; reflexivity.
  - destruct cs as [|c cs]; cbn; [reflexivity|]. unfold sumN in *. rewrite IH; reflexivity.
Qed.
Lemma repeat0_sum n : sumN (repeat 0%N n) = 0%N.
Proof. unfold sumN; induction n; cbn; lia. Qed.
Lemma xh_new_sum bs h : xh_new bs = Some h -> sumN (xh_counts h) = 0%N.
Proof.
  unfold xh_new; destruct bs; [discriminate|]. intros [= <-]; cbn [xh_counts].
  apply (repeat0_sum (S (S _))).
Qed.
Lemma app_len_N (a b : list f64) :
  N.of_nat (List.length (a ++ b)) = (N.of_nat (List.length a) + N.of_nat (List.length b))%N.
Proof. rewrite app_length; lia. Qed.
Lemma snoc_len_N (a : list f64) x :
  N.of_nat (List.length (a ++ [x])) = (N.of_nat (List.length a) + 1)%N.
Proof. rewrite app_length; cbn; lia. Qed.

#[export] Instance xQ : QLib := {
  hist := xhist;
  ckms := list f64;
  h_new := xh_new;
  h_insert h x := mkXHist (xh_bounds h) (xh_bump (xh_bounds h) (xh_counts h) x) (xh_osum (xh_sum h) (Some x));
  h_merge a b := mkXHist (xh_bounds a) (nzip (xh_counts a) (xh_counts b)) (xh_osum (xh_sum a) (xh_sum b));
  h_count h := sumN (xh_counts h);
  h_sum := xh_sum;
  h_bins h := xh_pair (xh_bounds h) (xh_counts h);
  c_new _ := [];
  c_insert c x := c ++ [x];
  c_merge a b := a ++ b;
  c_count c := N.of_nat (List.length c);
  c_query c p := match c with [] => None | x :: r => Some (1%N, if fleb fone p then x else last r x) end;
  c_values c := c;
  c_cma c := match c with [] => None | x :: r => Some x end;
  h_new_count := xh_new_sum;
  h_insert_count h x := xh_bump_sum (xh_bounds h) (xh_counts h) x;
  h_merge_count a b := nzip_sum (xh_counts a) (xh_counts b);
  c_new_count _ := eq_refl;
  c_insert_count := snoc_len_N;
  c_merge_count := app_len_N;
  h_bins_total h := xh_pair_sum (xh_bounds h) (xh_counts h);
}.
