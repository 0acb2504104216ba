From Verif Require Import Base BaseFacts FloatFacts RoundSpec RoundProofs NumberModel NumberSpec UnicodeSpec UnicodeProofs.
Open Scope string_scope. Open Scope list_scope. Open Scope Z_scope.

(** ** digits *)
Lemma digit_char d : 0 <= d <= 9 -> digit_of (ascii_of_N (Z.to_N (48 + d))) = Some d.
Proof. intros H. assert (d = 0 \/ d = 1 \/ d = 2 \/ d = 3 \/ d = 4 \/ d = 5 \/ d = 6 \/ d = 7 \/ d = 8 \/ d = 9) as E by lia. repeat destruct E as [->|E]; subst; reflexivity. Qed.
Lemma digit_is c d : digit_of c = Some d -> 0 <= d <= 9 /\ c = ascii_of_N (Z.to_N (48 + d)).
Proof.
  unfold digit_of. intros H. destruct (Z.leb_spec 48 (Z.of_N (N_of_ascii c))), (Z.leb_spec (Z.of_N (N_of_ascii c)) 57); cbn [andb] in H; try discriminate. injection H as <-. split; [lia|].
  replace (48 + (Z.of_N (N_of_ascii c) - 48)) with (Z.of_N (N_of_ascii c)) by lia. rewrite N2Z.id, ascii_N_embedding. reflexivity.
Qed.
Definition no_digit (s : string) : Prop := match s with String c _ => digit_of c = None | "" => True end.
Lemma number_written s n : written s n -> forall acc, number acc s = acc * 10 ^ Z.of_nat (String.length s) + n.
Proof.
  induction 1 as [|d r n Hd H IH]; intros acc; [cbn; lia|]. cbn [number String.length]. rewrite digit_char by assumption. rewrite IH, Nat2Z.inj_succ, Z.pow_succ_r by lia. ring.
Qed.
Lemma eat_written a n : written a n -> forall r, no_digit r -> eat_digits (a ++ r)%string = (a, r).
Proof.
  induction 1 as [|d a n Hd H IH]; intros r Hr.
  - destruct r as [|c r]; [reflexivity|]. cbn in *. rewrite Hr. reflexivity.
  - cbn [String.append eat_digits]. rewrite digit_char by assumption. rewrite IH by assumption. reflexivity.
Qed.
Lemma eat_spec s : exists n, let (a, r) := eat_digits s in s = (a ++ r)%string /\ written a n /\ no_digit r.
Proof.
  induction s as [|c s [n IH]]; [exists 0; repeat split; constructor|]. cbn [eat_digits]. destruct (digit_of c) as [d|] eqn:D.
  - destruct (eat_digits s) as [a r]. destruct IH as (-> & W & N0). apply digit_is in D as [Hd ->]. eexists. split; [reflexivity|]. split; [constructor; eassumption|assumption].
  - exists 0. split; [reflexivity|]. split; [constructor|exact D].
Qed.
Lemma written_fun s n : written s n -> forall n', written s n' -> n = n'.
Proof. intros H n' H'. pose proof (number_written _ _ H 0). pose proof (number_written _ _ H' 0). lia. Qed.
Lemma app_s_nil s : (s ++ "")%string = s.
Proof. induction s as [|c s IH]; [reflexivity|]. cbn. rewrite IH. reflexivity. Qed.
Lemma written_app a b n : written (a ++ b)%string n -> exists na nb, written a na /\ written b nb.
Proof.
  revert n. induction a as [|c a IH]; intros n H; [exists 0, n; split; [constructor|exact H]|]. cbn in H. inversion H as [|d r n0 Hd H1]; subst. destruct (IH _ H1) as (na & nb & A & B). do 2 eexists. split; [constructor; eassumption|exact B].
Qed.
Lemma seqb_nil s : seqb s "" = true <-> s = "".
Proof. split; [apply String.eqb_eq|intros ->; reflexivity]. Qed.
Lemma seqb_not s : seqb s "" = false <-> s <> "".
Proof. apply String.eqb_neq. Qed.
(** ** signs *)
Lemma sign_spec s neg r : take_sign s = (neg, r) <-> signed s neg r.
Proof.
  split.
  - destruct s as [|c s]; cbn [take_sign]; intros H; [injection H as <- <-; constructor; intros; split; discriminate|].
    destruct (Ascii.eqb_spec c "+") as [->|H1]; [injection H as <- <-; constructor|]. destruct (Ascii.eqb_spec c "-") as [->|H2]; [injection H as <- <-; constructor|].
    injection H as <- <-. constructor. intros r'. split; intros E; injection E as E _; congruence.
  - destruct 1 as [r|r|r H]; [reflexivity|reflexivity|]. destruct r as [|c r]; [reflexivity|]. cbn [take_sign]. destruct (Ascii.eqb_spec c "+") as [->|H1]; [destruct (proj1 (H r) eq_refl)|].
    destruct (Ascii.eqb_spec c "-") as [->|H2]; [destruct (proj2 (H r) eq_refl)|]. reflexivity.
Qed.
Lemma exp_spec s k : parse_exp s = Some k <-> integer s k.
Proof.
  unfold parse_exp. split.
  - destruct (take_sign s) as [neg r] eqn:S. apply sign_spec in S. destruct (eat_spec r) as [n E]. destruct (eat_digits r) as [a rest]. destruct E as (-> & W & N0).
    destruct (seqb a "") eqn:A; [discriminate|]. apply seqb_not in A. destruct (seqb rest "") eqn:R; [|discriminate]. apply seqb_nil in R. subst rest. rewrite app_s_nil in S. cbn [negb]. intros H. injection H as <-.
    exists neg, a, n. rewrite (number_written _ _ W), Z.mul_0_l. repeat split; auto.
  - intros (neg & a & n & S & A & W & ->). apply sign_spec in S. rewrite S. pose proof (eat_written _ _ W "" Logic.I) as E. rewrite app_s_nil in E. rewrite E. apply seqb_not in A. rewrite A. cbn [seqb negb String.eqb].
    rewrite (number_written _ _ W), Z.mul_0_l. reflexivity.
Qed.
Lemma i64_spec s z : parse_i64 s = Some z <-> integer s z /\ -9223372036854775808 <= z <= 9223372036854775807.
Proof.
  assert (E : parse_i64 s = match parse_exp s with Some z => if (-9223372036854775808 <=? z) && (z <=? 9223372036854775807) then Some z else None | None => None end).
  { unfold parse_i64, parse_exp. destruct (take_sign s) as [neg r]. destruct (eat_digits r) as [a rest]. destruct (seqb a ""); [reflexivity|]. destruct (negb (seqb rest "")); reflexivity. }
  rewrite E, <- exp_spec. destruct (parse_exp s) as [k|]; [|split; [discriminate|intros [X _]; discriminate]].
  destruct (Z.leb_spec (-9223372036854775808) k), (Z.leb_spec k 9223372036854775807); cbn [andb]; (split; [intros X; (discriminate X || (injection X as <-; split; [reflexivity|lia]))|intros [X Y]; injection X as <-; try reflexivity; lia]).
Qed.
(** ** decimals *)
Lemma is_e_spec c : is_e c = true <-> c = "e"%char \/ c = "E"%char.
Proof. unfold is_e. rewrite orb_true_iff. rewrite !Ascii.eqb_eq. reflexivity. Qed.
Lemma tail_spec a b tail n e : (exists na, written (a ++ b)%string na) -> parse_tail a b tail = Some (n, e) <->
  exists k, (a ++ b)%string <> "" /\ written (a ++ b)%string n /\ exponent tail k /\ e = k - Z.of_nat (String.length b).
Proof.
  intros [na W]. unfold parse_tail. pose proof (number_written _ _ W 0) as E0. rewrite Z.mul_0_l, Z.add_0_l in E0. split.
  - destruct (seqb (a ++ b)%string "") eqn:A; [discriminate|]. apply seqb_not in A. destruct tail as [|c r]; intros H.
    + injection H as H1 H2. exists 0. rewrite <- H1, E0. repeat split; auto; try constructor; lia.
    + destruct (is_e c) eqn:C; [|discriminate]. apply is_e_spec in C. destruct (parse_exp r) as [k|] eqn:P; [|discriminate]. apply exp_spec in P. injection H as H1 H2. exists k. rewrite <- H1, E0. repeat split; auto. constructor; assumption.
  - intros (k & A & Wn & X & ->). apply seqb_not in A. rewrite A. rewrite E0, (written_fun _ _ W _ Wn). destruct X as [|c r k Hc I]; [reflexivity|]. apply is_e_spec in Hc. rewrite Hc. apply exp_spec in I. rewrite I. reflexivity.
Qed.
Lemma exponent_start x k : exponent x k -> no_digit x /\ forall r, x <> String "." r.
Proof. destruct 1 as [|c r k [->| ->] _]; (split; [exact Logic.I || reflexivity|discriminate]). Qed.
Lemma str_app_assoc (a b c : string) : ((a ++ b) ++ c)%string = (a ++ b ++ c)%string.
Proof. induction a as [|x a IH]; [reflexivity|]. cbn. rewrite IH. reflexivity. Qed.
Lemma written_join a b na nb : written a na -> written b nb -> exists n, written (a ++ b)%string n.
Proof. intros A B. induction A as [|d r n Hd H [m IH]]; [exists nb; exact B|]. eexists. cbn. constructor; eassumption. Qed.
Lemma decimal_spec s n e : parse_decimal s = Some (n, e) <-> decimal s n e.
Proof.
  unfold parse_decimal. split.
  - destruct (eat_spec s) as [na E]. destruct (eat_digits s) as [a r]. destruct E as (-> & W & N0).
    assert (G : parse_tail a "" r = Some (n, e) -> decimal (a ++ r)%string n e).
    { intros T. apply tail_spec in T; [|exists na; rewrite app_s_nil; exact W]. destruct T as (k & A & Wn & X & ->). rewrite app_s_nil in *. cbn [String.length]. rewrite Z.sub_0_r. constructor; assumption. }
    destruct r as [|c r]; [exact G|]. destruct (Ascii.eqb_spec c ".") as [->|_]; [|exact G]. destruct (eat_spec r) as [nb E]. destruct (eat_digits r) as [b r2]. destruct E as (-> & Wb & N1).
    intros T. apply tail_spec in T; [|eapply written_join; eassumption]. destruct T as (k & A & Wn & X & ->). apply dec_point; assumption.
  - destruct 1 as [a x n k A W X|a b x n k A W X]; destruct (exponent_start _ _ X) as [N0 N1].
    + rewrite (eat_written _ _ W _ N0). assert (T : parse_tail a "" x = Some (n, k)). { apply tail_spec; [rewrite app_s_nil; eauto|]. exists k. rewrite app_s_nil. repeat split; auto. cbn. lia. }
      destruct x as [|c x]; [exact T|]. destruct (Ascii.eqb_spec c ".") as [->|_]; [destruct (N1 x eq_refl)|exact T].
    + destruct (written_app _ _ _ W) as (na & nb & Wa & Wb). rewrite (eat_written _ _ Wa (String "." (b ++ x)%string) eq_refl). cbn [Ascii.eqb]. change (Ascii.eqb "." ".") with true. cbv iota.
      rewrite (eat_written _ _ Wb _ N0). apply tail_spec; [eauto|]. exists k. repeat split; auto.
Qed.
Lemma zero_nearest s d : 0 < d -> nearest s 0 d (S754_zero s).
Proof.
  intros Hd. split.
  - unfold too_large. intros H. exfalso. assert (0 < (2 ^ 54 - 1) * 2 ^ 970 * d) by (apply Z.mul_pos_pos; [|assumption]; apply Z.mul_pos_pos; [reflexivity|apply Z.pow_pos_nonneg; [reflexivity|discriminate]]). apply (Z.lt_irrefl 0). eapply Z.lt_le_trans; eassumption.
  - intros _. split; [reflexivity|]. split; [reflexivity|]. intros y _. split; [|intros; exact Logic.I]. unfold off. cbn [units]. rewrite !Z.mul_0_l, Z.sub_0_r. apply Z.abs_nonneg.
Qed.
Lemma written_nonneg s n : written s n -> 0 <= n.
Proof. induction 1 as [|d r n Hd H IH]; [lia|]. assert (0 <= 10 ^ Z.of_nat (String.length r)) by (apply Z.pow_nonneg; lia). nia. Qed.
Lemma decimal_nonneg s n e : decimal s n e -> 0 <= n.
Proof. destruct 1; eauto using written_nonneg. Qed.
Lemma dec_float_for neg n e : 0 <= n -> float_for neg n e (dec_float neg n e).
Proof.
  intros Hn. unfold float_for, dec_float. assert (P1 : 0 < 10 ^ Z.max 0 e) by (apply Z.pow_pos_nonneg; lia). assert (P2 : 0 < 10 ^ Z.max 0 (- e)) by (apply Z.pow_pos_nonneg; lia).
  destruct (Z.eqb_spec n 0) as [->|Hz]; [rewrite Z.mul_0_l; apply zero_nearest; assumption|].
  destruct (Z.leb_spec 0 e).
  - replace (Z.max 0 e) with e in * by lia. replace (Z.max 0 (- e)) with 0 in * by lia. apply quotient_nearest; [nia|assumption].
  - replace (Z.max 0 e) with 0 in * by lia. replace (Z.max 0 (- e)) with (- e) in * by lia. rewrite Z.pow_0_r, Z.mul_1_r. apply quotient_nearest; [lia|assumption].
Qed.
(** ** words *)
Lemma flush_app cur ws : cur <> [] -> flush_word cur ws = str_of cur :: ws.
Proof. destruct cur; [congruence|reflexivity]. Qed.
Lemma white_white c r : white c -> white_len (encode c ++ r) = List.length (encode c).
Proof.
  intros [H|[H|H]].
  - assert (c = 9 \/ c = 10 \/ c = 11 \/ c = 12 \/ c = 13)%N as E by lia. repeat destruct E as [->|E]; subst; reflexivity.
  - assert (c = 8192 \/ c = 8193 \/ c = 8194 \/ c = 8195 \/ c = 8196 \/ c = 8197 \/ c = 8198 \/ c = 8199 \/ c = 8200 \/ c = 8201 \/ c = 8202)%N as E by lia. repeat destruct E as [->|E]; subst; reflexivity.
  - cbn [In] in H. repeat destruct H as [<-|H]; try reflexivity. contradiction.
Qed.
Lemma inner_byte b r : (128 <= b < 192)%N -> white_len (b :: r) = 0%nat.
Proof.
  intros H. cbn [white_len]. assert (E : forall a, (a < 128 \/ 192 <= a)%N -> (b =? a)%N = false) by (intros a Ha; apply N.eqb_neq; lia).
  replace (b <=? 13)%N with false by (symmetry; apply N.leb_gt; lia). rewrite andb_false_r, !E by lia. destruct r as [|c [|d r]]; reflexivity.
Qed.
Lemma black_lead c r : scalar c -> ~ white c -> white_len (encode c ++ r) = 0%nat.
Proof.
  intros S W. unfold white in W. cbn [In] in W. apply encode_forms in S. destruct S as [[L ->]|[(x & y & -> & ? & ? & Ec)|[(x & y & z & -> & ? & ? & ? & Ec)|(x & y & z & w & -> & ? & ? & ? & Ec)]]]; cbn [app white_len].
  - assert (c <> 32 /\ ~ (9 <= c <= 13))%N as [N1 N2] by (split; [intros ->; apply W; right; right; left; reflexivity|intros X; apply W; left; exact X]).
    destruct (N.leb_spec 9 c), (N.leb_spec c 13), (N.eqb_spec c 32); cbn [andb orb]; try lia; destruct r as [|b [|d r]]; try reflexivity;
    repeat (match goal with |- context [N.eqb c ?a] => destruct (N.eqb_spec c a); try lia end); reflexivity.
  - destruct (N.leb_spec 9 (192 + x)), (N.leb_spec (192 + x) 13), (N.eqb_spec (192 + x) 32); cbn [andb orb]; try lia.
    assert (K : ((192 + x =? 194) && ((128 + y =? 133) || (128 + y =? 160)))%N = false).
    { apply not_true_is_false. intros K. apply andb_true_iff in K as [K1 K2]. apply orb_true_iff in K2. rewrite !N.eqb_eq in *. assert (c = 133 \/ c = 160)%N as [->| ->] by lia; apply W; right; right; cbn; tauto. }
    rewrite K. destruct r as [|d r]; [reflexivity|]. repeat (match goal with |- context [N.eqb (192 + x) ?a] => destruct (N.eqb_spec (192 + x) a); try lia end); reflexivity.
  - destruct (N.leb_spec 9 (224 + x)), (N.leb_spec (224 + x) 13), (N.eqb_spec (224 + x) 32); cbn [andb orb]; try lia. destruct (N.eqb_spec (224 + x) 194); cbn [andb]; try lia.
    match goal with |- (if ?b then _ else _) = _ => destruct b eqn:K end; [exfalso|reflexivity]. apply W. rewrite !orb_true_iff, !andb_true_iff, !orb_true_iff, !andb_true_iff, !N.eqb_eq, !N.leb_le in K. lia.
  - destruct (N.leb_spec 9 (240 + x)), (N.leb_spec (240 + x) 13), (N.eqb_spec (240 + x) 32); cbn [andb orb]; try lia.
    repeat (match goal with |- context [N.eqb (240 + x) ?a] => destruct (N.eqb_spec (240 + x) a); try lia end); reflexivity.
Qed.
Lemma step_black c r cur : scalar c -> ~ white c -> words_of 0 cur (encode c ++ r) = words_of 0 (cur ++ encode c) r.
Proof.
  intros S W. pose proof (black_lead c r S W) as E0. apply encode_forms in S. destruct S as [[L E]|[(x & y & E & ? & ? & Ec)|[(x & y & z & E & ? & ? & ? & Ec)|(x & y & z & w & E & ? & ? & ? & Ec)]]]; rewrite E in *; cbn [app] in *; cbn [words_of].
  - rewrite E0. reflexivity.
  - rewrite E0. rewrite inner_byte by lia. rewrite <- app_assoc. reflexivity.
  - rewrite E0. rewrite !inner_byte by lia. rewrite <- !app_assoc. reflexivity.
  - rewrite E0. rewrite !inner_byte by lia. rewrite <- !app_assoc. reflexivity.
Qed.
Lemma step_white c r cur : scalar c -> white c -> words_of 0 cur (encode c ++ r) = flush_word cur (words_of 0 [] r).
Proof.
  intros S W. pose proof (white_white c r W) as E0. apply encode_forms in S. destruct S as [[L E]|[(x & y & E & ? & ? & Ec)|[(x & y & z & E & ? & ? & ? & Ec)|(x & y & z & w & E & ? & ? & ? & Ec)]]]; rewrite E in *; cbn [app List.length] in *; cbn [words_of]; rewrite E0; reflexivity.
Qed.
Lemma steps_white w r : Forall scalar w -> Forall white w -> words_of 0 [] (encoded w ++ r) = words_of 0 [] r.
Proof. intros S. induction S as [|c w Hc S IH]; intros W; [reflexivity|]. inversion W; subst. cbn [encoded flat_map]. rewrite <- app_assoc, step_white by assumption. apply IH. assumption. Qed.
Lemma steps_black v : Forall scalar v -> Forall (fun c => ~ white c) v -> forall cur r, words_of 0 cur (encoded v ++ r) = words_of 0 (cur ++ encoded v) r.
Proof.
  intros S. induction S as [|c v Hc S IH]; intros W cur r; [rewrite app_nil_r; reflexivity|]. inversion W; subst. cbn [encoded flat_map]. rewrite <- app_assoc, step_black by assumption. fold (encoded v). rewrite IH by assumption. rewrite <- app_assoc. reflexivity.
Qed.
Lemma encoded_app a b : encoded (a ++ b) = encoded a ++ encoded b.
Proof. apply flat_map_app. Qed.
Lemma encoded_nonempty v : v <> [] -> encoded v <> [].
Proof. destruct v as [|c v]; [congruence|]. cbn. pose proof (encode_nonempty c). destruct (encode c); [congruence|discriminate]. Qed.
Lemma splits_words cs ws : splits cs ws -> Forall scalar cs -> str_words (encoded cs) = map (fun w => str_of (encoded w)) ws.
Proof.
  unfold str_words. induction 1 as [w W|w v r ws W Nv B Hr H IH]; intros S.
  - rewrite <- (app_nil_r (encoded w)). rewrite steps_white by assumption. reflexivity.
  - apply Forall_app in S as [S1 S]. apply Forall_app in S as [S2 S3]. rewrite !encoded_app, steps_white, steps_black by assumption. cbn [app map].
    assert (E : words_of 0 (encoded v) (encoded r) = flush_word (encoded v) (words_of 0 [] (encoded r))).
    { destruct Hr as [->|(c & r' & -> & Wc)]; [reflexivity|]. inversion S3; subst. cbn [encoded flat_map]. rewrite !step_white by assumption. reflexivity. }
    rewrite E, flush_app by (apply encoded_nonempty; assumption). rewrite IH by assumption. reflexivity.
Qed.
Lemma white_dec c : white c \/ ~ white c.
Proof.
  unfold white. destruct (in_dec N.eq_dec c [0x20; 0x85; 0xA0; 0x1680; 0x2028; 0x2029; 0x202F; 0x205F; 0x3000]%N) as [H|H]; [left; tauto|].
  destruct (N.leb_spec 9 c), (N.leb_spec c 13), (N.leb_spec 0x2000 c), (N.leb_spec c 0x200A); try (left; lia); right; intros [X|[X|X]]; try lia; contradiction.
Qed.
Lemma splits_total cs : exists ws, splits cs ws.
Proof.
  assert (R : forall cs, exists v r, cs = v ++ r /\ Forall (fun c => ~ white c) v /\ (r = [] \/ exists c r', r = c :: r' /\ white c)).
  { clear cs. induction cs as [|c cs' (v & r & -> & F & Hr)]; [exists [], []; repeat split; auto|]. destruct (white_dec c) as [Wc|Wc]; [exists [], (c :: v ++ r); repeat split; eauto|]. exists (c :: v), r. repeat split; auto. }
  assert (T : forall cs, exists w r, cs = w ++ r /\ Forall white w /\ (r = [] \/ exists c r', r = c :: r' /\ ~ white c)).
  { clear cs R. induction cs as [|c cs' (v & r & -> & F & Hr)]; [exists [], []; repeat split; auto|]. destruct (white_dec c) as [Wc|Wc]; [|exists [], (c :: v ++ r); repeat split; eauto]. exists (c :: v), r. repeat split; auto. }
  remember (List.length cs) as n eqn:En. revert cs En. induction n as [n IH] using lt_wf_ind. intros cs ->. destruct (T cs) as (w & r & -> & F & Hr).
  destruct Hr as [->|(c & r' & -> & Nc)]; [exists []; rewrite app_nil_r; constructor; assumption|]. destruct (R (c :: r')) as (v & r2 & E & B & Hr2). rewrite E.
  assert (v <> []). { intros ->. cbn in E. destruct Hr2 as [->|(c2 & ? & -> & W2)]; [discriminate|]. injection E as <- _. contradiction. }
  destruct (IH (List.length r2)) with (cs := r2) as (ws & H2); [rewrite E, !app_length; destruct v; [congruence|cbn; lia]|reflexivity|]. exists (v :: ws). constructor; assumption.
Qed.
