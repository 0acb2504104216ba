(** * Properties C151 and C152: the numbers and words of text lines, and what they can do to a sink. *)
From Verif Require Import Base BaseFacts TelemetryModel ParseModel ParseSpec ParseProofs ParseProps GraphiteModel FloatFacts RoundSpec RoundProofs NumberModel NumberSpec NumberProofs UnicodeSpec UnicodeProofs
  WavefrontModel WavefrontSpec InfluxModel InfluxSpec InfluxProofs InfluxProps QExample TelemetryProps.
Open Scope string_scope. Open Scope list_scope. Open Scope Z_scope.

(** ** C151: numbers are read as they are written *)
(** the times of graphite lines: every integer in the range of 64 bits, signed or not, with leading zeros or not, and nothing else *)
Theorem C151_integers : forall s z, parse_i64 s = Some z <-> integer s z /\ - 2 ^ 63 <= z < 2 ^ 63.
Proof. intros s z. rewrite i64_spec. change (2 ^ 63) with 9223372036854775808. intuition lia. Qed.
(** the values: a decimal is read as the float nearest to it, of which there is one *)
Theorem C151_decimals : forall named s neg r n e, signed s neg r -> decimal r n e ->
  exists x, parse_f64 named s = Some x /\ forall y, float_for neg n e y <-> y = x.
Proof.
  intros named s neg r n e S D. pose proof (decimal_nonneg _ _ _ D) as Hn. apply sign_spec in S. apply decimal_spec in D. exists (dec_float neg n e). unfold parse_f64. rewrite S, D. split; [reflexivity|].
  intros y. split; [|intros ->; apply dec_float_for; assumption]. intros H. eapply nearest_unique; [|exact H|apply dec_float_for; assumption]. apply Z.pow_pos_nonneg; lia.
Qed.
(** and nothing else is read but the names of what is not a number *)
Theorem C151_only : forall named s x, parse_f64 named s = Some x ->
  exists neg r, signed s neg r /\ ((exists n e, decimal r n e /\ float_for neg n e x) \/ (forall n e, ~ decimal r n e) /\ exists y, named r = Some y /\ x = if neg then SFopp y else y).
Proof.
  intros named s x. unfold parse_f64. destruct (take_sign s) as [neg r] eqn:S. apply sign_spec in S. destruct (parse_decimal r) as [[n e]|] eqn:D; intros H.
  - injection H as <-. apply decimal_spec in D. exists neg, r. split; [exact S|]. left. exists n, e. split; [exact D|]. apply dec_float_for. eapply decimal_nonneg; eassumption.
  - exists neg, r. split; [exact S|]. right. split; [intros n e X; apply decimal_spec in X; congruence|]. destruct (named r) as [y|]; [|discriminate]. injection H as <-. eauto.
Qed.
(** the names are read, also with a sign *)
Theorem C151_named : forall named s neg r y, signed s neg r -> (forall n e, ~ decimal r n e) -> named r = Some y -> parse_f64 named s = Some (if neg then SFopp y else y).
Proof.
  intros named s neg r y S D N. apply sign_spec in S. unfold parse_f64. rewrite S. destruct (parse_decimal r) as [[n e]|] eqn:P; [exfalso; apply (D n e); apply decimal_spec; exact P|]. rewrite N. reflexivity.
Qed.
(** which they are, in older and newer versions of std *)
Lemma lowered_like t : forall s, Forall (fun d => ~ (65 <= N_of_ascii d <= 90)%N) (list_ascii_of_string t) -> lowered s = t <-> any_case s t.
Proof.
  assert (L : forall c d, ~ (65 <= N_of_ascii d <= 90)%N -> lower c = d <-> c = d \/ (65 <= N_of_ascii c <= 90 /\ N_of_ascii d = N_of_ascii c + 32)%N).
  { intros c d Hd. unfold lower. destruct (N.leb_spec 65 (N_of_ascii c)), (N.leb_spec (N_of_ascii c) 90); cbn [andb]; split; try tauto; try (intros [X|X]; [|lia]; assumption).
    - intros <-. right. split; [lia|]. apply N_ascii_embedding. lia.
    - intros [->|[X Y]]; [exfalso; lia|]. rewrite <- Y. apply ascii_N_embedding. }
  unfold any_case. induction t as [|d t IH]; intros [|c s] F; cbn [lowered list_ascii_of_string]; split; intros H; try discriminate; try (inversion H; fail); try constructor; try reflexivity.
  - inversion F; subst. injection H as E1 E2. apply L; assumption.
  - inversion F; subst. injection H as E1 E2. apply IH; assumption.
  - inversion F; subst. inversion H; subst. f_equal; [apply L; assumption|apply IH; assumption].
Qed.
Theorem C151_names : forall s x,
  (names_1_54 s = Some x <-> s = "inf" /\ x = S754_infinity false \/ s = "NaN" /\ x = fnan) /\
  (names_1_55 s = Some x <-> (any_case s "inf" \/ any_case s "infinity") /\ x = S754_infinity false \/ any_case s "nan" /\ x = fnan).
Proof.
  intros s x. split.
  - unfold names_1_54, seqb. destruct (String.eqb_spec s "inf") as [->|N1]; [|destruct (String.eqb_spec s "NaN") as [->|N2]]; split; intros H; try discriminate; try (injection H as <-; auto; fail); destruct H as [[E ->]|[E ->]]; try discriminate E; try contradiction; reflexivity.
  - rewrite <- !lowered_like by (repeat constructor; cbn; lia). unfold names_1_55, seqb. set (l := lowered s). clearbody l.
    destruct (String.eqb_spec l "inf") as [->|N1]; cbn [orb]; [|destruct (String.eqb_spec l "infinity") as [->|N2]; [|destruct (String.eqb_spec l "nan") as [->|N3]]]; split; intros H; try discriminate; try (injection H as <-; auto; fail);
      destruct H as [[[E|E] ->]|[E ->]]; try discriminate E; try contradiction; reflexivity.
Qed.
Lemma exact_nearest s n d x : 0 < d -> finite x -> minus x = s -> units x * d = n * 2 ^ 1074 -> ~ too_large n d -> nearest s n d x.
Proof.
  intros Hd F M U T. split; [intros X; contradiction|]. intros _. split; [exact F|]. split; [exact M|]. intros y Fy. unfold off. rewrite U, Z.sub_diag. split; [apply Z.abs_nonneg|].
  cbn [Z.abs]. intros E Ne. exfalso. apply Ne. apply (Z.mul_cancel_r _ _ d); [intros ->; discriminate Hd|]. rewrite U. apply (proj1 (Z.abs_0_iff _)) in E. apply Zminus_eq. exact E.
Qed.
(** whole numbers below 2^53 exactly *)
Theorem C151_whole : forall named s z, integer s z -> 0 < Z.abs z < 2 ^ 53 -> parse_f64 named s = Some (if z <? 0 then SFopp (fofZ (Z.abs z)) else fofZ z).
Proof.
  intros named s z (neg & a & n & S & A & W & ->) Hz. pose proof (written_nonneg _ _ W) as Hn. assert (Ha : Z.abs (with_sign neg n) = n) by (unfold with_sign; destruct neg; lia). rewrite Ha in *.
  assert (D : decimal a n 0) by (rewrite <- (app_s_nil a); constructor; [assumption|assumption|constructor]).
  destruct (C151_decimals named s neg a n 0 S D) as (x & -> & U). f_equal. symmetry. apply U. unfold float_for. cbn [Z.max Z.opp Z.compare]. rewrite Z.pow_0_r, Z.mul_1_r.
  destruct n as [|k|k]; try lia. destruct (fofZ_small k) as (m & E & Em); [lia|]. pose proof (digits_bounds k) as B. set (d := Z.pos (digits2_pos k)) in *. assert (Hd : 0 < d <= 53).
  { split; [subst d; lia|]. destruct (Z_le_gt_dec d 53); [assumption|]. assert (2 ^ 53 <= 2 ^ (d - 1)) by (apply Z.pow_le_mono_r; lia). lia. }
  assert (X : (if with_sign neg (Z.pos k) <? 0 then SFopp (fofZ (Z.pos k)) else fofZ (with_sign neg (Z.pos k))) = S754_finite neg m (d - 53)).
  { unfold with_sign. destruct neg; cbn [Z.opp Z.ltb Z.compare]; rewrite E; reflexivity. }
  rewrite X. assert (Hm : 2 ^ 52 <= Z.pos m < 2 ^ 53).
  { rewrite Em. assert (0 < 2 ^ (53 - d)) by (apply Z.pow_pos_nonneg; lia). assert (E1 : 2 ^ 53 = 2 ^ d * 2 ^ (53 - d)) by (rewrite <- Z.pow_add_r by lia; f_equal; lia). assert (E2 : 2 ^ 52 = 2 ^ (d - 1) * 2 ^ (53 - d)) by (rewrite <- Z.pow_add_r by lia; f_equal; lia). rewrite E1, E2. nia. }
  apply exact_nearest; [lia| |reflexivity| |].
  - cbn [finite]. apply valid_make; lia.
  - cbn [units]. rewrite Em, Z.mul_1_r, <- Z.mul_assoc, <- Z.pow_add_r by lia. f_equal. f_equal. lia.
  - unfold too_large. rewrite Z.mul_1_r. intros T. assert (2 ^ 53 <= (2 ^ 54 - 1) * 2 ^ 970) by (apply Z.leb_le; vm_compute; reflexivity). clear - T H Hz. assert (2 ^ 53 <= Z.pos k) by (eapply Z.le_trans; eassumption). lia.
Qed.
(** the words of a line are what stands between white space, whichever of Unicode's it is *)
Theorem C151_words : forall cs, Forall scalar cs -> exists ws, splits cs ws /\ str_words (encoded cs) = map (fun w => str_of (encoded w)) ws.
Proof. intros cs S. destruct (splits_total cs) as (ws & H). exists ws. split; [exact H|]. apply splits_words; assumption. Qed.
(** so a line of graphite becomes the point it says *)
Theorem C151_graphite : forall (Q : QLib) named (base : telemetry) cs name vtext ttext neg r n e z,
  Forall scalar cs -> splits cs [name; vtext; ttext] -> signed (str_of (encoded vtext)) neg r -> decimal r n e -> integer (str_of (encoded ttext)) z -> - 2 ^ 63 <= z < 2 ^ 63 ->
  exists t x, gparse (parse_f64 named) parse_i64 str_words base (encoded cs) [] = PReturn true [t] /\
    t_name t = str_of (encoded name) /\ t_timestamp t = z /\ t_tags t = t_tags base /\ t_value t = VSet x /\ float_for neg n e x.
Proof.
  intros Q named base cs name vtext ttext neg r n e z Sc Sp Sg D I R. unfold gparse. rewrite (splits_words _ _ Sp Sc). cbn [map].
  destruct (C151_decimals named _ _ _ _ _ Sg D) as (x & P & U). assert (T : parse_i64 (str_of (encoded ttext)) = Some z) by (apply C151_integers; split; assumption).
  cbn [graphite_words]. rewrite P, T. rewrite graphite_harden. eexists _, x. do 5 (split; [reflexivity|]). apply U. reflexivity.
Qed.
(** and a counter or gauge of statsd the point it says *)
Theorem C151_statsd : forall (Q : QLib) named cfg now (base : telemetry) name vtext neg r n e,
  cfg_ok cfg -> name <> "" -> free_of ":" name -> free_of "|" vtext -> signed vtext neg r -> decimal r n e ->
  exists x, float_for neg n e x /\ forall (counter : bool), let src := ParseSpec.line_text name vtext (if counter then TCounter else TGauge) None in ParseModel.lines src = [src] ->
    exists t, parse_statsd (parse_f64 named) cfg now base src [] = PReturn true [t] /\ t_name t = name /\ t_timestamp t = now /\ t_tags t = t_tags base /\
      t_value t = if counter then VSum x else if explicitly_signed vtext then VSum x else VSet x.
Proof.
  intros Q named cfg now base name vtext neg r n e Hc Hn Hf Hb Sg D. destruct (C151_decimals named _ _ _ _ _ Sg D) as (x & P & U). exists x. split; [apply U; reflexivity|].
  destruct (C28_gauge_and_counter Q (parse_f64 named) cfg now base name vtext x false vtext x Hc Hn Hf Hb P P) as (G & C & _).
  intros counter src El. unfold src in *. destruct counter; [destruct (C El) as (t & E & H1 & H2 & H3 & _ & H5)|destruct (G El) as (t & E & H1 & H2 & H3 & _ & H5)]; exists t; auto.
Qed.

(** "k 1.5e1", a no-break space, "-7": and the float nearest to a tenth *)
Example C151_ex :
  let cs := [107; 32; 49; 46; 53; 101; 49; 0xA0; 45; 55; 10]%N in
  Forall scalar cs /\ splits cs [[107]; [49; 46; 53; 101; 49]; [45; 55]]%N /\ decimal "1.5e1" 15 0 /\ integer "-7" (-7) /\
  gparse (parse_f64 names_1_54) parse_i64 str_words xbase (encoded cs) [] = PReturn true [pt "k" (VSet (fofZ 15)) false None (-7)] /\
  parse_f64 names_1_54 "0.1" = Some (S754_finite false 7205759403792794 (-56)) /\ parse_f64 names_1_54 "1e400" = Some (S754_infinity false) /\
  parse_f64 names_1_54 "-5e-324" = Some (S754_finite true 1 (-1074)) /\ parse_f64 names_1_54 "." = None /\ parse_i64 "9223372036854775808" = None.
Proof.
  cbv zeta. split; [repeat constructor; unfold scalar; lia|]. split.
  { assert (N : forall c, (c = 107 \/ 45 <= c <= 101)%N -> ~ white c) by (intros c Hc [X|[X|X]]; [lia|lia|cbn in X; lia]).
    apply (sp_word [] [107]%N [32; 49; 46; 53; 101; 49; 0xA0; 45; 55; 10]%N); [constructor|discriminate|repeat constructor; apply N; lia|right; eexists _, _; split; [reflexivity|right; right; cbn; tauto]|].
    apply (sp_word [32]%N [49; 46; 53; 101; 49]%N [0xA0; 45; 55; 10]%N); [constructor; [right; right; cbn; tauto|constructor]|discriminate|repeat constructor; apply N; lia|right; eexists _, _; split; [reflexivity|right; right; cbn; tauto]|].
    apply (sp_word [0xA0]%N [45; 55]%N [10]%N); [constructor; [right; right; cbn; tauto|constructor]|discriminate|repeat constructor; apply N; lia|right; eexists _, _; split; [reflexivity|left; lia]|]. constructor. constructor; [left; lia|constructor]. }
  assert (W : forall d, 0 <= d <= 9 -> written (String (ascii_of_N (Z.to_N (48 + d))) "") (d * 1 + 0)) by (intros d Hd; apply (wr_digit d "" 0 Hd); constructor).
  split. { apply (dec_point "1" "5" "e1" 15 1); [discriminate|apply (wr_digit 1 "5" 5); [lia|apply (W 5); lia]|]. constructor; [left; reflexivity|]. exists false, "1", 1. split; [constructor; split; discriminate|]. split; [discriminate|]. split; [apply (W 1); lia|reflexivity]. }
  split. { exists true, "7", 7. split; [constructor|]. split; [discriminate|]. split; [apply (W 7); lia|reflexivity]. }
  repeat split; vm_compute; reflexivity.
Qed.
Example C151_ex_names : parse_f64 names_1_54 "-inf" = Some (S754_infinity true) /\ parse_f64 names_1_55 "+Infinity" = Some (S754_infinity false) /\ parse_f64 names_1_54 "nan" = None /\ any_case "nAn" "nan".
Proof. do 3 (split; [vm_compute; reflexivity|]). constructor; [left; reflexivity|]. constructor; [right; cbn; lia|]. constructor; [left; reflexivity|constructor]. Qed.
Print Assumptions C151_integers.
Print Assumptions C151_decimals.
Print Assumptions C151_only.
Print Assumptions C151_named.
Print Assumptions C151_names.
Print Assumptions C151_whole.
Print Assumptions C151_words.
Print Assumptions C151_graphite.
Print Assumptions C151_statsd.

(** ** C152: nothing a client can write stops a sink.  False: a name that is not a number, or a zero sampled at the rate zero, becomes a point
    that is NaN, at which the InfluxDB sink panics at its next flush, whatever else it holds *)
Theorem C152_refuted : forall (Q : QLib) (named : string -> option f64) (show_f : f64 -> string) (show_n : N -> string) cfg now (base : telemetry) packet,
  named = names_1_54 \/ named = names_1_55 -> shows show_f -> cfg_ok cfg -> packet = "a:NaN|g" \/ packet = "a:0|c|@0" ->
  exists t, parse_statsd (parse_f64 named) cfg now base packet [] = PReturn true [t] /\
    forall tags s c ans later, i_flush show_f show_n tags (fold_left (fun s t => i_deliver t s) later (i_deliver t s)) c ans = IPanic.
Proof.
  intros Q named sf sn cfg now base packet Hn Hsh Hc Hp.
  assert (G : exists t, parse_statsd (parse_f64 named) cfg now base packet [] = PReturn true [t] /\ (t_value t = VSet fnan \/ t_value t = VSum fnan)).
  { destruct Hp as [-> | ->].
    - destruct (C28_gauge_and_counter Q (parse_f64 named) cfg now base "a" "NaN" fnan false "NaN" fnan Hc ltac:(discriminate) ltac:(cbn; repeat split; discriminate) ltac:(cbn; repeat split; discriminate)) as (G & _);
        [destruct Hn as [-> | ->]; reflexivity|destruct Hn as [-> | ->]; reflexivity|]. destruct (G eq_refl) as (t & E & _ & _ & _ & _ & V). exists t. split; [exact E|left; exact V].
    - destruct (C28_gauge_and_counter Q (parse_f64 named) cfg now base "a" "0" fzero true "0" fzero Hc ltac:(discriminate) ltac:(cbn; repeat split; discriminate) ltac:(cbn; repeat split; discriminate)) as (_ & _ & _ & G);
        [destruct Hn as [-> | ->]; reflexivity|destruct Hn as [-> | ->]; reflexivity|]. destruct (G eq_refl) as (t & E & _ & _ & _ & _ & V). exists t. split; [exact E|right; exact V]. }
  destruct G as (t & E & V). exists t. split; [exact E|]. intros tags s c ans later.
  apply (proj1 (C58_refuted Q sf sn Hsh tags _ c ans)). intros F.
  assert (A : forall later s, i_aggrs (fold_left (fun s t => i_deliver t s) later s) = i_aggrs s ++ later).
  { clear. induction later as [|x later IH]; intros s; [rewrite app_nil_r; reflexivity|]. cbn [fold_left]. rewrite IH. cbn [i_deliver i_aggrs]. rewrite <- app_assoc. reflexivity. }
  rewrite A in F. cbn [i_deliver i_aggrs] in F. apply Forall_app in F as [F _]. apply Forall_app in F as [_ F]. inversion F as [|? ? N0]; subst. unfold no_nan, measurements in N0. destruct V as [V|V]; rewrite V in N0; inversion N0 as [|? ? X]; subst; apply X; reflexivity.
Qed.
(** Points made of decimals, not sampled, do not. *)
Theorem C152_decimals_partial : forall (Q : QLib) (named : string -> option f64) (show_f : f64 -> string) cfg now (base : telemetry) name vtext neg r n e (counter : bool) ts,
  cfg_ok cfg -> name <> "" -> free_of ":" name -> free_of "|" vtext -> signed vtext neg r -> decimal r n e ->
  let src := ParseSpec.line_text name vtext (if counter then TCounter else TGauge) None in ParseModel.lines src = [src] ->
  parse_statsd (parse_f64 named) cfg now base src [] = PReturn true ts -> Forall (no_nan show_f) ts.
Proof.
  intros Q named sf cfg now base name vtext neg r n e counter ts Hc Hn Hf Hb Sg D src El P. destruct (C151_statsd Q named cfg now base name vtext neg r n e Hc Hn Hf Hb Sg D) as (x & X & G).
  destruct (G counter El) as (t & E & _ & _ & _ & V). unfold src in P. rewrite E in P. injection P as <-. constructor; [|constructor].
  assert (Nx : x <> fnan). { intros ->. destruct X as [X1 X2]. assert (T : ~ too_large (n * 10 ^ Z.max 0 e) (10 ^ Z.max 0 (- e))) by (intros T; discriminate (X1 T)). destruct (X2 T) as [[] _]. }
  unfold no_nan, measurements. rewrite V. destruct counter; [|destruct (explicitly_signed vtext)]; (constructor; [exact Nx|constructor]).
Qed.
Example C152_ex : @cfg_ok xQ xcfg /\ parse_statsd (parse_f64 names_1_55) xcfg 7 xbase "a:0|c|@0" [] = PReturn true [pt "a" (VSum fnan) false None 7] /\
  parse_statsd (parse_f64 names_1_55) xcfg 7 xbase "a:-nan|g" [] = PReturn true [pt "a" (VSum fnan) true None 7] /\
  parse_statsd (parse_f64 names_1_55) xcfg 7 xbase "a:.25|g" [] = PReturn true [pt "a" (VSet (fratio 1 4)) true None 7].
Proof. split; [exact (proj1 C27_ex)|]. repeat split; vm_compute; reflexivity. Qed.
Print Assumptions C152_refuted.
Print Assumptions C152_decimals_partial.
