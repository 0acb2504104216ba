(** * C164: the integers cernan writes read back as themselves; so do the counters a scraper reads. *)
From Verif Require Import Base BaseFacts FloatFacts RoundSpec ArithProofs TelemetryModel TelemetrySpec TelemetryProofs TelemetryProps QExample NumberModel NumberSpec NumberProofs NumberProps ScrapeModel ScrapeSpec ScrapedSpec ScrapedProofs ScrapedProps ShownSpec ArriveSpec CollectSpec CollectProps FlowModel FlowSpec PrometheusModel PrometheusSpec CountSpec CountProps RiseSpec RiseProps ConserveProps ShowModel.
From Coq Require Import Lia Permutation.
Open Scope string_scope. Open Scope list_scope. Open Scope Z_scope.

Lemma digit_written d r n : (d <= 9)%N -> written r n -> written (String (digit d) r) (Z.of_N d * 10 ^ Z.of_nat (String.length r) + n).
Proof. intros H W. assert (X := wr_digit (Z.of_N d) r n ltac:(lia) W). replace (Z.to_N (48 + Z.of_N d)) with (48 + d)%N in X by lia. exact X. Qed.
Lemma put_written f : forall n acc a, (n < 2 ^ N.of_nat f)%N -> (0 < N.of_nat f)%N -> written acc a -> written (put f n acc) (Z.of_N n * 10 ^ Z.of_nat (String.length acc) + a).
Proof.
  induction f as [|f IH]; intros n acc a Hn Hf W; [lia|]. cbn [put]. destruct (N.ltb_spec n 10) as [H|H]; [apply digit_written; [lia|exact W]|].
  assert (Hm : (n mod 10 < 10)%N) by (apply N.mod_lt; discriminate). assert (D := N.div_mod n 10 ltac:(discriminate)). rewrite Nat2N.inj_succ, N.pow_succ_r' in Hn.
  assert (Hq : (n / 10 < 2 ^ N.of_nat f)%N) by (set (P := (2 ^ N.of_nat f)%N) in *; clearbody P; set (q := (n / 10)%N) in *; set (m := (n mod 10)%N) in *; clearbody q m; lia).
  assert (Hf' : (0 < N.of_nat f)%N) by (destruct f; [exfalso; change (2 ^ N.of_nat 0)%N with 1%N in Hn; lia|lia]).
  assert (X := IH (n / 10)%N (String (digit (n mod 10)) acc) _ Hq Hf' (digit_written (n mod 10) acc a ltac:(lia) W)).
  replace (Z.of_N n * 10 ^ Z.of_nat (String.length acc) + a) with (Z.of_N (n / 10) * 10 ^ Z.of_nat (String.length (String (digit (n mod 10)) acc)) + (Z.of_N (n mod 10) * 10 ^ Z.of_nat (String.length acc) + a)); [exact X|].
  cbn [String.length]. rewrite Nat2Z.inj_succ, Z.pow_succ_r by lia. assert (E : Z.of_N n = 10 * Z.of_N (n / 10) + Z.of_N (n mod 10)) by lia. rewrite E. ring.
Qed.
Lemma log_room n : (n < 2 ^ N.of_nat (Datatypes.S (N.to_nat (N.log2 n))))%N.
Proof. rewrite Nat2N.inj_succ, N2Nat.id. destruct n as [|p]; [reflexivity|]. apply N.log2_spec. reflexivity. Qed.
Lemma show_written n : written (show_u n) (Z.of_N n).
Proof. assert (X := put_written _ n "" 0 (log_room n) ltac:(lia) wr_none). cbn [String.length] in X. change (10 ^ Z.of_nat 0) with 1 in X. rewrite Z.mul_1_r, Z.add_0_r in X. exact X. Qed.
(** digits only, the first not a nought but for nought itself *)
Lemma put_head f : forall n acc, (n < 2 ^ N.of_nat f)%N -> (0 < N.of_nat f)%N -> exists d r, put f n acc = String (digit d) r /\ (d <= 9)%N /\ (d = 0%N -> n = 0%N /\ r = acc).
Proof.
  induction f as [|f IH]; intros n acc Hn Hf; [lia|]. cbn [put]. destruct (N.ltb_spec n 10) as [H|H]; [exists n, acc; split; [reflexivity|split; [lia|auto]]|].
  assert (D := N.div_mod n 10 ltac:(discriminate)). assert (Hm : (n mod 10 < 10)%N) by (apply N.mod_lt; discriminate). rewrite Nat2N.inj_succ, N.pow_succ_r' in Hn.
  assert (Hq : (n / 10 < 2 ^ N.of_nat f)%N) by (set (P := (2 ^ N.of_nat f)%N) in *; clearbody P; set (q := (n / 10)%N) in *; set (m := (n mod 10)%N) in *; clearbody q m; lia).
  assert (Hf' : (0 < N.of_nat f)%N) by (destruct f; [exfalso; change (2 ^ N.of_nat 0)%N with 1%N in Hn; lia|lia]).
  destruct (IH (n / 10)%N (String (digit (n mod 10)) acc) Hq Hf') as (d & r & E & Hd & Z). exists d, r. split; [exact E|]. split; [exact Hd|]. intros X. destruct (Z X) as [Y _]. lia.
Qed.
Lemma show_head n : exists d r, show_u n = String (digit d) r /\ (d <= 9)%N /\ (d = 0%N -> n = 0%N /\ r = "").
Proof. apply put_head; [apply log_room|lia]. Qed.
Lemma digit_cases d : (d <= 9)%N -> In (digit d) (list_ascii_of_string "0123456789").
Proof. intros H. assert (X : (d = 0 \/ d = 1 \/ d = 2 \/ d = 3 \/ d = 4 \/ d = 5 \/ d = 6 \/ d = 7 \/ d = 8 \/ d = 9)%N) by lia. cbn. decompose [or] X; subst d; cbn; tauto. Qed.
Lemma put_token f : forall n acc p, (forall c, In c (list_ascii_of_string "0123456789") -> p c = true) -> all_chars p acc = true -> all_chars p (put f n acc) = true.
Proof.
  induction f as [|f IH]; intros n acc p Hp Ha; [exact Ha|]. cbn [put]. destruct (N.ltb_spec n 10) as [H|H]; [cbn [all_chars]; rewrite Hp by (apply digit_cases; lia); exact Ha|].
  apply IH; [exact Hp|]. cbn [all_chars]. assert (Hm : (n mod 10 < 10)%N) by (apply N.mod_lt; discriminate). rewrite Hp by (apply digit_cases; lia). exact Ha.
Qed.

(** ** C164 *)
(** the text of an integer writes it, with a sign only if it is negative and without noughts before *)
Theorem C164_integers : forall z, integer (show_i z) z /\ (- 2 ^ 63 <= z < 2 ^ 63 -> parse_i64 (show_i z) = Some z) /\
  (forall r, show_i z <> String "+" r) /\ (forall r, show_i z = String "0" r -> z = 0 /\ r = "") /\ (forall r, show_i z <> String "-" (String "0" r)).
Proof.
  intros z. assert (I : integer (show_i z) z).
  { unfold show_i. destruct (Z.ltb_spec z 0) as [H|H].
    - exists true, (show_u (Z.abs_N z)), (Z.abs z). split; [constructor|]. split; [destruct (show_head (Z.abs_N z)) as (d & r & -> & _); discriminate|]. split; [rewrite <- N2Z.inj_abs_N; apply show_written|]. cbn. lia.
    - exists false, (show_u (Z.to_N z)), z. split; [|split; [destruct (show_head (Z.to_N z)) as (d & r & -> & _); discriminate|split; [|reflexivity]]].
      + constructor. intros r'. destruct (show_head (Z.to_N z)) as (d & r & -> & Hd & _). apply digit_cases in Hd. cbn in Hd. split; intros E; injection E as E _; rewrite E in Hd; decompose [or] Hd; try discriminate; contradiction.
      + rewrite <- (Z2N.id z) at 2 by exact H. apply show_written. }
  split; [exact I|]. split; [intros H; apply C151_integers; split; assumption|].
  assert (D0 : forall d, (d <= 9)%N -> digit d = "0"%char -> d = 0%N).
  { intros d Hd E. assert (X : (d = 0 \/ d = 1 \/ d = 2 \/ d = 3 \/ d = 4 \/ d = 5 \/ d = 6 \/ d = 7 \/ d = 8 \/ d = 9)%N) by lia. decompose [or] X; subst d; (reflexivity || discriminate E). }
  unfold show_i. destruct (Z.ltb_spec z 0) as [H|H].
  - split; [discriminate|]. split; [discriminate|]. intros r E. injection E as E. destruct (show_head (Z.abs_N z)) as (d & r' & E' & Hd & Z). rewrite E' in E. injection E as E _. apply D0 in E; [|exact Hd]. destruct (Z E). lia.
  - destruct (show_head (Z.to_N z)) as (d & r' & -> & Hd & Z). assert (Hc := digit_cases d Hd). cbn in Hc. split; [intros r E; injection E as E _; rewrite E in Hc; decompose [or] Hc; try discriminate; contradiction|]. split.
    + intros r E. injection E as E <-. apply D0 in E; [|exact Hd]. destruct (Z E). split; [lia|assumption].
    + intros r E. injection E as E _. rewrite E in Hc. decompose [or] Hc; try discriminate; contradiction.
Qed.
(** different integers have different texts *)
Theorem C164_one_text : forall z z', show_i z = show_i z' -> z = z'.
Proof.
  assert (G : forall s n, written s n -> forall m, written s m -> n = m).
  { induction 1 as [|d r n Hd W IH]; intros m Wm; inversion Wm as [|d' r' n' Hd' W' E]; subst; [reflexivity|]. f_equal; [|apply IH; exact W']. f_equal.
    match goal with H : ascii_of_N _ = ascii_of_N _ |- _ => apply (f_equal N_of_ascii) in H; rewrite !N_ascii_embedding in H by lia; lia end. }
  assert (U : forall a b, show_u a = show_u b -> a = b) by (intros a b E; assert (X := G _ _ (show_written a) (Z.of_N b)); rewrite E in X; specialize (X (show_written b)); lia).
  assert (S : forall a b, show_u a <> String "-" (show_u b)).
  { intros a b E. destruct (show_head a) as (d & r & E' & Hd & _). rewrite E' in E. injection E as E _. apply digit_cases in Hd. rewrite E in Hd. cbn in Hd. decompose [or] Hd; try discriminate; contradiction. }
  intros z z' E. unfold show_i in E. destruct (Z.ltb_spec z 0), (Z.ltb_spec z' 0); [injection E as E; apply U in E; lia|symmetry in E; apply S in E; contradiction|apply S in E; contradiction|apply U in E; lia].
Qed.
(** they are fit for the text format of prometheus *)
Theorem C164_token : forall z, token (show_i z).
Proof.
  intros z. split; [unfold show_i; destruct (z <? 0); [discriminate|destruct (show_head (Z.to_N z)) as (d & r & -> & _); discriminate]|].
  assert (P : forall n, all_chars (fun c => orb (label_char c) (orb (Ascii.eqb c ".") (orb (Ascii.eqb c "+") (Ascii.eqb c "-")))) (show_u n) = true).
  { intros n. apply put_token; [|reflexivity]. intros c Hc. cbn in Hc. decompose [or] Hc; subst; try reflexivity; contradiction. }
  unfold show_i. destruct (z <? 0); [cbn [all_chars]; rewrite P; reflexivity|apply P].
Qed.
(** Where whole floats are written as the integers they are (Display writes no ".0"), a scraper reads the total of the counts as a number. *)
Theorem C164_scraped : forall (Q : QLib) cap show_f show_n default age shuffle cs t zs, (forall n l, Permutation l (shuffle n l)) ->
  (forall x, token (show_f x)) -> (forall n, show_n n = show_i (Z.of_N n)) -> (forall z, Z.abs z <= 2 ^ 53 -> show_f (fofZ z) = show_i z) -> NoDup (map fst default) -> Forall tag_fit default ->
  In (CDeliver (ETelemetry t)) cs -> t_kind t = MSum ->
  forall ms ms' r body, does_all prom_does cs (ScrapeSpec.told ms) -> in_reach age ms ms' t -> kind_fits age ms t -> asked_after cap show_f show_n default age None shuffle ms ms' r body ->
  Forall point_fit (given age (ms ++ ms')) ->
  (forall u v, In u (given age (ms ++ ms')) -> In v (given age (ms ++ ms')) -> sanitize (t_name u) = sanitize (t_name v) -> t_name u = t_name v) ->
  Forall2 (fun u z => t_sum u = Some (fofZ z)) (of_metric (t_name t) MSum (given age (ms ++ ms'))) zs -> countable zs ->
  exists zs1 zs2 labels text before after, zs = zs1 ++ zs2 /\ (List.length (of_metric (t_name t) MSum (given age ms)) <= List.length zs1)%nat /\
    scrape_text body = Some (before ++ [SType (sanitize (t_name t)) "counter"; SSample (sanitize (t_name t)) labels text] ++ after) /\
    integer text (CountSpec.total zs1) /\ parse_i64 text = Some (CountSpec.total zs1).
Proof.
  intros Q cap show_f show_n default age shuffle cs t zs Hp Hf Hn Hw Hd1 Hd2 Hin Hk ms ms' r body D Hr Kf A Fit Inj Z C.
  assert (Hn' : forall n, token (show_n n)) by (intros n; rewrite Hn; apply C164_token).
  destruct (C158_exact Q cap show_f show_n default age shuffle cs t zs Hp Hf Hn' Hd1 Hd2 Hin Hk ms ms' r body D Hr Kf A Fit Inj Z C) as (zs1 & zs2 & labels & before & after & E & L & X).
  assert (B : Z.abs (CountSpec.total zs1) <= 2 ^ 53).
  { clear - C E. subst zs. unfold countable in C. rewrite map_app in C. assert (T : forall a b, CountSpec.total (a ++ b) = CountSpec.total a + CountSpec.total b) by (unfold CountSpec.total; induction a as [|x a IH]; intros b; cbn; [lia|rewrite IH; lia]). rewrite T in C.
    assert (P : forall l, 0 <= CountSpec.total (map Z.abs l) /\ Z.abs (CountSpec.total l) <= CountSpec.total (map Z.abs l)) by (unfold CountSpec.total; induction l as [|x l IH]; cbn; lia). pose proof (P zs1). pose proof (P zs2). lia. }
  exists zs1, zs2, labels, (show_i (CountSpec.total zs1)), before, after. split; [exact E|]. split; [exact L|]. rewrite <- (Hw _ B) at 1. split; [exact X|]. destruct (C164_integers (CountSpec.total zs1)) as (I & P & _). split; [exact I|]. apply P.
  clear - B. change (2 ^ 53) with 9007199254740992 in B. change (2 ^ 63) with 9223372036854775808. lia.
Qed.
Example C164_ex : show_i 0 = "0" /\ show_i (-9223372036854775808) = "-9223372036854775808" /\ show_i 1000 = "1000" /\ parse_i64 (show_i (-1200)) = Some (-1200).
Proof. repeat split; vm_compute; reflexivity. Qed.
(** a way to write floats as asked of: whole ones as integers, others by name *)
Definition xshow_f (x : f64) : string := let z := whole_of x in if feqb x (fofZ z) then show_i z else "NaN".
Example C164_ex_scraped : (forall x, token (xshow_f x)) /\ (forall z, Z.abs z <= 2 ^ 53 -> xshow_f (fofZ z) = show_i z).
Proof.
  split; [intros x; unfold xshow_f; cbv zeta; destruct (feqb x _); [apply C164_token|split; [discriminate|reflexivity]]|]. intros z H. unfold xshow_f. cbv zeta. rewrite whole_back by exact H.
  destruct (fofZ_exact z H) as [F _]. assert (E : forall y, finite y -> feqb y y = true).
  { clear. intros [s|s| |s m e] F; try contradiction; [reflexivity|]. unfold feqb, SFeqb, SFcompare. rewrite Z.compare_refl, Pos.compare_refl. destruct s; reflexivity. }
  rewrite (E _ F). reflexivity.
Qed.

Print Assumptions C164_integers.
Print Assumptions C164_one_text.
Print Assumptions C164_token.
Print Assumptions C164_scraped.
